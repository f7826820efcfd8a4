(** What the quadtree overlay of a drawing tells, in the coordinates of the file. *)
From Coq Require Import List Bool Arith Lia Permutation.
From Verif Require Import Base Num GeoModel HazardModel QTModel TransfModel HpgModel CdeModel CdeSpec
  PolyModel ParserModel SimplModel SlotMapModel LayoutModel ProblemModel ProblemSpec LbfModel IoModel ParseModel SvgModel
  BaseProofs Instances ParityProofs PipProofs NormProofs XformProofs ConstructProofs RigidProofs RegionProofs RectPolyProofs SlotMapProofs LayoutProofs ProblemProofs ProblemOpsProofs
  MirrorProofs StripProofs LbfRunProofs LbfBpProofs LbfThmProofs LbfHistProofs FitProofs LbfStripThmProofs LbfSpProofs LbfSamplerProofs IoProofs IoThmProofs HistBinProofs HistLayoutProofs HpgShapeProofs
  ParseProofs ParseThmProofs ParseSpProofs ParseSolveProofs SvgShiftProofs SvgProofs SvgTreeProofs SvgTotalProofs SvgDrawProofs SvgItemProofs SvgThmProofs SvgAllProofs.
From Coq Require Import Reals Lra.
From Verif Require Import GeoModel HazardModel QTModel TransfModel HpgModel CdeModel CdeSpec GeoSpec PlaceSpec HpgSpec ShapeSpec SimplSpec LbfModel LbfSpec IoModel IoSpec ParseModel ParseSpec SvgModel SvgSpec.
Import ListNotations.
Local Open Scope R_scope.
#[local] Existing Instance RTrig.

Section A.
  Variable M : R.
  Context {X : Extra R} {ED : EqD (dtransf R)} {BS : BSearch} {G : Type} {RG : Rng R G}.
  Hypothesis BSok : bsearch_ok BS.
  #[local] Instance NB : Num R := RNumT Reqb M.
  Variable umax : nat.
  Variable pr : parser R.
  Hypothesis Ht : tol_ok (pr_simpl pr).
  Hypothesis Ep : @fPI R X = PI.
  Local Notation tol := (pr_simpl pr).
  Local Notation bin := (bin R (dtransf R)).
  Local Notation item := (item R).
  Local Notation layout := (layout R (dtransf R)).
  Local Notation lsnap := (lsnap R (dtransf R)).
  Local Notation solution := (solution R (dtransf R)).
  Local Notation back dx dy := (sh (- dx) (- dy)).

  (** the hazards of a bin *)
  Section B.
    Variables (b : bin) (dx dy : R) (c : fbin).
    Hypothesis At : bin_at b dx dy c.
    Lemma at_holes : forall h, In h (fb_holes c) -> exists k hz, In hz (bin_statics b) /\ h_ent hz = BinHole k /\ at_shift dx dy h (a_obj (h_shape hz)).
    Proof.
      intros h Hh. destruct (arcs_find _ (fun i => BinHole i) _ _ h (ba_holes _ _ _ _ At) Hh) as (k & hz & A & B & C). exists k, hz.
      split; [|auto]. right. apply in_or_app. left. exact A.
    Qed.
    Lemma at_zones : forall z, In z (fb_zones c) -> exists k hz, In hz (bin_statics b) /\ h_ent hz = InferiorQualityZone (fst z) k /\ at_shift dx dy (snd z) (a_obj (h_shape hz)).
    Proof.
      intros [q z] Hz. cbn [fst snd]. destruct (ba_zones _ _ _ _ At) as [(_ & E)|(l & El & Eq & Q & K)]; [rewrite E in Hz; destruct Hz|]. pose proof (Q _ Hz) as Lq. cbn [fst] in Lq.
      assert (Hq : In q (map (@qz_quality R) l)) by (rewrite Eq; apply in_seq; lia). apply in_map_iff in Hq as (y & Ey & Hy).
      specialize (K y Hy). rewrite Ey in K.
      destruct (arcs_find _ (fun i => InferiorQualityZone (qz_quality y) i) _ _ z K) as (k & hz & A & B & C).
      { apply in_map_iff. exists (q, z). split; [reflexivity|]. apply filter_In. split; [exact Hz|]. apply Nat.eqb_refl. }
      exists k, hz. rewrite Ey in B. split; [|auto]. right. apply in_or_app. right. apply in_flat_map. exists y. split; [|exact A].
      rewrite El, omap_some. exact Hy.
    Qed.
    Lemma at_all : forall hz, In hz (bin_statics b) -> exists o, at_shift dx dy o (a_obj (h_shape hz)) /\
      ((h_ent hz = BinExterior /\ o = fb_outer c) \/ (ent_position (h_ent hz) = Interior /\ (In o (fb_holes c) \/ exists z, In z (fb_zones c) /\ snd z = o))).
    Proof.
      intros hz [<-|H].
      - exists (fb_outer c). split; [exact (ba_outer _ _ _ _ At)|left; split; reflexivity].
      - apply in_app_or in H as [H|H].
        + destruct (arcs_all _ _ _ _ hz (ba_holes _ _ _ _ At) H) as (o & A & B). exists o. split; [exact B|]. right. split; [|auto].
          unfold arcs_hazards in H. apply in_map_iff in H as ([k a] & <- & _). reflexivity.
        + apply in_flat_map in H as (y & Hy & H). destruct (ba_zones _ _ _ _ At) as [(E & _)|(l & El & Eq & Q & K)].
          { rewrite E in Hy. cbn in Hy. destruct Hy. }
          rewrite El, omap_some in Hy.
          destruct (arcs_all _ _ _ _ hz (K y Hy) H) as (o & A & B). exists o. split; [exact B|]. right. split.
          * unfold arcs_hazards in H. apply in_map_iff in H as ([k a] & <- & _). reflexivity.
          * right. apply in_map_iff in A as (z & <- & A). apply filter_In in A as (A & _). eauto.
    Qed.
  End B.

  Section L.
    Variables (items : list (item * nat)) (fs : list fitem) (pre : nat -> transf R) (l : layout) (dx dy : R) (c : fbin).
    Hypothesis Len : length fs = length items.
    Hypothesis Fit : forall i it q f, nth_error items i = Some (it, q) -> nth_error fs i = Some f -> item_fits it f (pre i).
    Hypothesis At : bin_at (ly_bin l) dx dy c.
    Hypothesis Kn : known items l.
    Local Notation b := (ly_bin l).
    Local Notation pl := (exported pre b (placed l)).
    Local Notation mv := (tr_point (N := RNum) (bn_pre b)).
    Lemma mv_sh : forall p, mv p = shifted dx dy p.
    Proof. exact (ba_pre _ _ _ _ At). Qed.
    Lemma mv_back : forall q, mv (back dx dy q) = q.
    Proof. intros [u v]. rewrite mv_sh. unfold shifted, sh. cbn [px py]. f_equal; ring. Qed.
    Lemma item_pts : forall i d it q f, nth_error items i = Some (it, q) -> nth_error fs i = Some f ->
      p_pts (shape_at (item_shape items) i d) = map mv (map (put (out d (pre i) (bn_pre b))) (fi_outline f)).
    Proof.
      intros i d it q f Ni Nf. destruct (Fit _ _ _ _ Ni Nf) as (ix & iy & (Ea & _) & Mt & Sh & _). unfold shape_at, item_shape. rewrite Ni. cbn [fst].
      change (map (tr_point (N := RNum) (compose (N := RNum) d)) (p_pts (it_shape it)) = map mv (map (put (out d (pre i) (bn_pre b))) (fi_outline f))). rewrite Ea, !map_map. apply map_ext.
      intros p. symmetry. apply out_point; [exact Mt|exact (ba_motion _ _ _ _ At)|exact Sh].
    Qed.
    Lemma placed_in : forall i d, In (i, d) (placed l) -> exists it q f, nth_error items i = Some (it, q) /\ nth_error fs i = Some f.
    Proof.
      intros i d H. destruct (Kn _ H) as (it & q & Ni). cbn [fst] in Ni. destruct (nth_error fs i) as [f|] eqn:Ef; [eauto 6|].
      exfalso. apply nth_error_None in Ef. rewrite Len in Ef. apply nth_error_Some_lt in Ni. lia.
    Qed.
    Lemma deep_of : forall f q, In f (l_facts M items l) -> strictly_blocked f q -> taken_inside fs c pl (back dx dy q).
    Proof.
      intros f q Hf Hb. rewrite <- (mv_back q) in Hb. set (p := back dx dy q) in *. clearbody p. pose proof (proj1 (ba_motion _ _ _ _ At)) as Rg.
      unfold l_facts in Hf. apply in_app_or in Hf as [Hf|Hf].
      - apply in_map_iff in Hf as (hz & <- & Hz). destruct (at_all _ _ _ _ At hz Hz) as (o & (Ea & _) & K). unfold strictly_blocked in Hb. cbn [fact_of f_ent f_poly fst snd] in Hb.
        assert (Eo : p_pts (a_obj (h_shape hz)) = map mv o) by (rewrite Ea; apply map_ext; intros x; symmetry; apply mv_sh). rewrite Eo in Hb.
        destruct (rigid_sets (bn_pre b) o p Rg) as (_ & Ri & Ro). destruct K as [(Ee & ->)|(Ee & K)].
        + rewrite Ee in Hb. cbn [ent_position] in Hb. left. apply Ro. exact Hb.
        + rewrite Ee in Hb. apply Ri in Hb. destruct K as [K|(z & Hz' & <-)]; [right; left; eauto|right; right; left; eauto].
      - apply in_map_iff in Hf as ([i d] & <- & Hx). unfold strictly_blocked in Hb. cbn [f_ent f_poly fst snd ent_position] in Hb.
        destruct (placed_in _ _ Hx) as (it & n & f & Ni & Nf). match type of Hb with interior ?z _ => replace z with (map mv (map (put (out d (pre i) (bn_pre b))) (fi_outline f))) in Hb by (symmetry; exact (item_pts _ d _ _ _ Ni Nf)) end. apply (rigid_sets (bn_pre b) _ p Rg) in Hb.
        right; right; right. exists (i, out d (pre i) (bn_pre b)), f. cbn [fst snd]. split; [|auto]. unfold exported. apply in_map_iff. exists (i, d). auto.
    Qed.
    Lemma fact_of_taken : forall p, taken fs c pl p -> exists f, In f (l_facts M items l) /\ blocked f (mv p).
    Proof.
      intros p Hp. pose proof (proj1 (ba_motion _ _ _ _ At)) as Rg. destruct Hp as [Hp|[(h & Hh & Hp)|[(z & Hz & Hp)|(x & Hx & Hp)]]].
      - exists (fact_of (hazard_new (D := dtransf R) BinExterior (bn_outer b))). split; [unfold l_facts; apply in_or_app; left; apply in_map; left; reflexivity|].
        unfold blocked. cbn [fact_of f_ent f_poly fst snd hazard_new h_ent h_shape ent_position].
        assert (Eo : p_pts (a_obj (bn_outer b)) = map mv (fb_outer c)) by (rewrite (proj1 (ba_outer _ _ _ _ At)); apply map_ext; intros y; symmetry; apply mv_sh). rewrite Eo.
        destruct (rigid_sets (bn_pre b) (fb_outer c) p Rg) as (_ & Ri & _). rewrite <- Ri in Hp. unfold interior in Hp.
        destruct (on_border_dec (map mv (fb_outer c)) (mv p)) as [O|O]; [left; exact O|]. right. destruct (even_odd (map mv (fb_outer c)) (mv p)); [exfalso; apply Hp; split; [exact O|reflexivity]|reflexivity].
      - destruct (at_holes _ _ _ _ At h Hh) as (k & hz & Hs & Ee & (Ea & _)). exists (fact_of hz). split; [unfold l_facts; apply in_or_app; left; apply in_map; exact Hs|].
        unfold blocked. cbn [fact_of f_ent f_poly fst snd]. rewrite Ee. cbn [ent_position]. rewrite Ea, mv_sh. apply region_shift. exact Hp.
      - destruct (at_zones _ _ _ _ At z Hz) as (k & hz & Hs & Ee & (Ea & _)). exists (fact_of hz). split; [unfold l_facts; apply in_or_app; left; apply in_map; exact Hs|].
        unfold blocked. cbn [fact_of f_ent f_poly fst snd]. rewrite Ee. cbn [ent_position]. rewrite Ea, mv_sh. apply region_shift. exact Hp.
      - apply in_map_iff in Hx as ([i d] & <- & Hx). cbn [fst snd] in Hp. destruct Hp as (f & Nf & Hp). cbn [fst snd] in Nf, Hp. destruct (placed_in _ _ Hx) as (it & n & f' & Ni & Nf').
        rewrite Nf in Nf'. injection Nf' as <-. exists (PlacedItem i d, shape_at (item_shape items) i d, true). split; [unfold l_facts; apply in_or_app; right; apply in_map_iff; exists (i, d); auto|].
        unfold blocked. cbn [f_ent f_poly fst snd ent_position]. match goal with |- region ?z _ => replace z with (map mv (map (put (out d (pre i) (bn_pre b))) (fi_outline f))) by (symmetry; exact (item_pts _ d _ _ _ Ni Nf)) end. apply (LbfHistProofs.region_moved (bn_pre b)); [exact Rg|exact Hp].
    Qed.
    Lemma back_attr : forall q, moved_by (transform_to_svg (t_inverse (bn_pre b))) q = back dx dy q.
    Proof.
      intros q. rewrite (attr_put M Ep). rewrite put_point.
      assert (Mi : motion (t_inverse (N := RNum) (bn_pre b))) by exact (inv_affine _ (ba_motion _ _ _ _ At)).
      etransitivity; [|exact (undo_sh dx dy (bn_pre b) q (ba_motion _ _ _ _ At) (ba_pre _ _ _ _ At))]. exact (f_equal (fun t => tr_point (N := RNum) t q) (decompose_exact _ Mi)).
    Qed.
    Theorem told_shown : forall eh ph nh, SvgTreeProofs.told (l_facts M items l) (cfg_depth (bn_cfg b)) (bin_box b) (eh, ph, nh) ->
      tree_shown (cfg_depth (bn_cfg b)) fs c pl (transform_to_svg (t_inverse (bn_pre b))) eh ph nh.
    Proof.
      intros eh ph nh (T1 & T2 & T3 & T4 & T5). pose proof (ba_outer _ _ _ _ At) as (Eo & Md). pose proof (nm_box _ (md_norm _ Md)) as Bx. rewrite Eo in Bx.
      destruct Bx as (Bi & (p1 & P1 & E1) & (p2 & P2 & E2) & (p3 & P3 & E3) & (p4 & P4 & E4)).
      set (bb := p_bbox (a_obj (bn_outer b))) in *.
      assert (Sq : let w := x_max bb - x_min bb in let h := y_max bb - y_min bb in
        x_max (bin_box b) - x_min (bin_box b) = Rmax w h /\ y_max (bin_box b) - y_min (bin_box b) = Rmax w h /\ (forall p, in_rect bb p -> in_rect (bin_box b) p)).
      { pose proof (md_proper _ Md) as (W & H). fold bb in W, H. unfold bin_box. fold bb. clearbody bb. destruct bb as [a1 b1 a2 b2]. cbn [x_min x_max y_min y_max] in *.
        unfold inflate_to_square, f2. cbn [x_min x_max y_min y_max flt fsub fadd fdiv f0 f1 NB RNumT]. unfold Rltb.
        destruct (Rlt_dec (b2 - b1) (a2 - a1)) as [C|C]; [|destruct (Rlt_dec (a2 - a1) (b2 - b1)) as [C'|C']]; cbn [x_min x_max y_min y_max];
          [rewrite Rmax_left by lra|rewrite Rmax_right by lra|rewrite Rmax_left by lra]; (split; [lra|]; split; [lra|]; intros p (Z1 & Z2); cbn [x_min x_max y_min y_max] in Z1, Z2; split; cbn [x_min x_max y_min y_max]; lra). }
      cbn zeta in Sq. destruct Sq as (Sx & Sy & Si). split.
      - intros p Hp. destruct (T1 (shifted dx dy p)) as (r & Hr & Ir).
        { apply Si. eapply region_in_box; [exact Bi|]. apply region_shift. exact Hp. }
        exists r, (shifted dx dy p). split; [exact Hr|]. split; [exact Ir|]. rewrite back_attr. destruct p as [u v]. unfold shifted, sh. cbn [px py]. f_equal; ring.
      - intros r q Hr Ir. rewrite back_attr. destruct (T2 r Hr q Ir) as (f & Hf & Hb). eapply deep_of; eassumption.
      - intros r q Hr Ir Tk. rewrite back_attr in Tk. apply fact_of_taken in Tk as (f & Hf & Hb). rewrite mv_back in Hb. exact (proj2 (T3 r Hr f Hf) q Ir Hb).
      - exists (Rmax (x_max bb - x_min bb) (y_max bb - y_min bb)). split; [|split].
        + intros p q Hp Hq. apply (in_map (shifted dx dy)) in Hp, Hq. pose proof (Bi _ Hp) as (A1 & A2). pose proof (Bi _ Hq) as (A3 & A4). unfold shifted in *. cbn [px py] in *.
          pose proof (Rmax_l (x_max bb - x_min bb) (y_max bb - y_min bb)). pose proof (Rmax_r (x_max bb - x_min bb) (y_max bb - y_min bb)). split; lra.
        + apply in_map_iff in P1 as (q1 & <- & P1). apply in_map_iff in P2 as (q2 & <- & P2). apply in_map_iff in P3 as (q3 & <- & P3). apply in_map_iff in P4 as (q4 & <- & P4).
          unfold shifted in *. cbn [px py] in *.
          unfold Rmax. destruct (Rle_dec (x_max bb - x_min bb) (y_max bb - y_min bb)); [exists q4, q3|exists q2, q1]; (split; [assumption|]; split; [assumption|]); [right|left]; lra.
        + intros r Hr. destruct (T4 r Hr) as (A & B). assert (Pw : 2 ^ cfg_depth (bn_cfg b) <> 0) by (apply pow_nonzero; lra). rewrite <- Sx at 1. rewrite <- Sy at 1. rewrite <- A, <- B. split; field; exact Pw.
    Qed.
  End L.

  Lemma snap_tree : forall pre items fs o sn ptr d jl (ct : bin -> jcontainer R) cells c dx dy, fine_items items -> length fs = length items ->
    (forall i it q f, nth_error items i = Some (it, q) -> nth_error fs i = Some f -> item_fits it f (pre i)) ->
    drawable_snap M cells items sn -> bin_at (ls_bin sn) dx dy c -> do_tree o = true ->
    snapshot_to_svg pr pre items o sn ptr = Ok d -> export_layout pre items ct sn = Ok jl ->
    exists a eh ph nh, sv_tree d = Some (a, (eh, ph, nh)) /\ tree_shown (cfg_depth (bn_cfg (ls_bin sn))) fs c (jl_items jl) a eh ph nh.
  Proof.
    intros pre items fs o sn ptr d jl ct cells c dx dy Fi Len Fit [Si Gs Fb Kn _ _] At Dt H E. unfold snapshot_to_svg in H. apply rbind_ok in H as (l & El & H).
    pose proof (from_snapshot_LI BSok _ _ _ Si El) as Li.
    assert (Eb : ly_bin l = ls_bin sn /\ ly_items l = ls_items sn).
    { unfold layout_from_snapshot, layout_restore in El. apply rbind_ok in El as (? & _ & El). apply rbind_ok in El as (ce & _ & El). injection El as <-. cbn [ly_bin ly_items layout_new]. auto. }
    destruct Eb as (Eb & Eit).
    assert (Kl : known items l).
    { intros x Hx. unfold placed in Hx. apply in_map_iff in Hx as (pi & <- & Hx). cbn [fst]. apply Kn. unfold c_list, snap_content. cbn [snd]. rewrite <- Eit. apply in_map. exact Hx. }
    rewrite <- Eb in Fb, At. destruct (layout_tree M items Fi l Li Fb Kl) as ([[eh ph] nh] & Et & Td).
    unfold export_layout in E. apply rbind_ok in E as (pl & Ep' & E). injection E as <-. cbn [jl_items].
    rewrite (export_items_ok pre items (ls_bin sn)) in Ep'.
    2:{ apply Forall_forall. intros i Hi. destruct (Kn i Hi) as (it & q & Ni). apply nth_error_Some_lt in Ni. exact Ni. }
    injection Ep' as <-.
    unfold layout_to_svg in H. do 6 apply rbind_ok in H as (? & _ & H). apply rbind_ok in H as (tree & Etr & H). apply rbind_ok in H as (grid & _ & H). injection H as <-. cbn [sv_tree].
    rewrite Dt in Etr. apply rbind_ok in Etr as (tt' & Et' & Etr). injection Etr as <-.
    assert (Eq : tt' = (eh, ph, nh)) by (assert (Ok tt' = Ok (eh, ph, nh)) as Ez by (rewrite <- Et'; exact Et); injection Ez as ->; reflexivity). subst tt'.
    eexists _, eh, ph, nh. split; [reflexivity|]. rewrite <- Eb, <- Eit. exact (told_shown items fs pre l dx dy c Len Fit At Kl eh ph nh Td).
  Qed.
  Lemma drawn_pairs : forall pre items o (s : solution) ptr docs (ct : bin -> jcontainer R) js, draw_solution pr pre items o s ptr = Ok docs -> compose_json pre items ct s = Ok js ->
    Forall2 (fun d jl => exists sn, In sn (so_layouts s) /\ snapshot_to_svg pr pre items o sn ptr = Ok d /\ export_layout pre items ct sn = Ok jl) docs (js_layouts js).
  Proof.
    intros pre items o s ptr docs ct js H E. unfold draw_solution in H. unfold compose_json in E. apply rbind_ok in E as (ls & E & E'). injection E' as <-. cbn [js_layouts].
    assert (K : forall sns, incl sns (so_layouts s) -> forall docs ls, rmapM (fun l => snapshot_to_svg pr pre items o l ptr) sns = Ok docs -> rmapM (export_layout pre items ct) sns = Ok ls ->
      Forall2 (fun d jl => exists sn, In sn (so_layouts s) /\ snapshot_to_svg pr pre items o sn ptr = Ok d /\ export_layout pre items ct sn = Ok jl) docs ls).
    { clear. induction sns as [|sn sns IH]; intros I docs ls H E; cbn [rmapM] in H, E; [injection H as <-; injection E as <-; constructor|].
      apply rbind_ok in H as (d & Ed & H). apply rbind_ok in H as (ds & Eds & H). injection H as <-.
      apply rbind_ok in E as (l & El & E). apply rbind_ok in E as (ls' & Els & E). injection E as <-.
      constructor; [|apply IH; [intros x Hx; apply I; right; exact Hx|exact Eds|exact Els]]. exists sn. split; [apply I; left; reflexivity|]. auto. }
    exact (K _ (fun x Hx => Hx) _ _ H E).
  Qed.
  Theorem tree_bins : forall j ptr inst pres, parse umax pr j ptr = Ok (IBP inst, pres) ->
    exists bs fs cs, jn_bins j = Some bs /\ Forall2 (item_of_file tol) (jn_items j) fs /\ Forall2 (bin_of_file tol) bs cs /\
      (clean_items fs -> clean_bins cs -> forall s, made_by M inst s -> forall o ptr' docs, do_tree o = true -> draw_solution pr (pre_of pres) (bi_items inst) o s ptr' = Ok docs ->
       exists js, bp_export (pre_of pres) inst s = Ok js /\
       Forall2 (fun d l => exists k c a eh ph nh, jl_container l = JBin k /\ nth_error cs k = Some c /\ sv_tree d = Some (a, (eh, ph, nh)) /\
         tree_shown (cfg_depth (pr_cfg pr)) fs c (jl_items l) a eh ph nh) docs (js_layouts js)).
  Proof.
    intros j ptr inst pres H. destruct (parse_inv M umax pr Ht Ep _ _ _ _ H) as (fs & I & bs & bins & cs & Eb & Es & Hn & B). cbn [inst_items] in *.
    exists bs, fs, cs. split; [exact Eb|]. split; [exact (proj1 I)|]. split; [exact (proj1 B)|]. intros Ci Cb s Hs o ptr' docs Dt Hd.
    destruct (solution_exported M pr _ _ _ _ _ _ (fun b : bin => JBin (bn_id b)) Hd) as (js & Hj). exists js. split; [exact Hj|].
    pose proof (bins_snaps M BSok umax pr _ _ _ _ _ _ _ _ H I Eb Es Hn B Ci Cb s Hs) as Sn. rewrite Forall_forall in Sn.
    destruct (items_fit M pr _ _ _ _ I) as (Lf & Kf). refine (F2_impl _ _ _ _ _ (drawn_pairs _ _ _ _ _ _ _ _ Hd Hj)). intros d l (sn & Hsn & Ed & El).
    pose proof (Sn sn Hsn) as S. pose proof (ss_known _ _ _ _ _ S) as (k & dx & dy & c & Ek & Ec & At).
    destruct (snap_tree _ _ fs _ _ _ _ _ _ false c dx dy (items_fine M pr _ _ _ _ I Ci) Lf Kf (solved_drawable M pr _ _ _ false S ltac:(discriminate)) At Dt Ed El) as (a & eh & ph & nh & T1 & T2).
    exists k, c, a, eh, ph, nh. split; [|split; [exact Ec|split; [exact T1|]]].
    - unfold export_layout in El. apply rbind_ok in El as (? & _ & El). injection El as <-. cbn [jl_container]. rewrite Ek. reflexivity.
    - rewrite <- (ss_cfg _ _ _ _ _ S). exact T2.
  Qed.
  Theorem tree_strip : forall j ptr inst pres, parse umax pr j ptr = Ok (ISP inst, pres) ->
    exists hgt fs, jn_strip j = Some hgt /\ Forall2 (item_of_file tol) (jn_items j) fs /\
      (clean_items fs -> 0 < hgt -> forall fuel tl c cfg (g : G) ptr' p s p', 0 <= tl -> lbf_sp fuel tl inst c cfg g ptr' = Ok (Some (p, s, p')) ->
       forall o ptr'' docs, do_tree o = true -> draw_solution pr (pre_of pres) (si_items inst) o s ptr'' = Ok docs ->
       exists w pl u us d a eh ph nh, sp_export (pre_of pres) inst s = Ok (JS us [JL (JStrip w hgt) pl u]) /\ docs = [d] /\ sv_tree d = Some (a, (eh, ph, nh)) /\
         tree_shown (cfg_depth c) fs (FB (strip_outline w hgt) [] []) pl a eh ph nh).
  Proof.
    intros j ptr inst pres H. destruct (parse_inv M umax pr Ht Ep _ _ _ _ H) as (fs & I & hgt & _ & Es & Hn). cbn [inst_items] in *.
    exists hgt, fs. split; [exact Es|]. split; [exact (proj1 I)|]. intros Ci Hh fuel tl c cfg g ptr' p s p' Htl Hr o ptr'' docs Dt Hd.
    pose proof (items_fine M pr _ _ _ _ I Ci) as Fi. destruct (items_fit M pr _ _ _ _ I) as (Lf & Kf).
    destruct (lbf_sp_packs M BSok _ _ _ _ _ _ _ _ _ _ _ _ Hn Fi Hr) as (sn & Esn & _ & _ & Y1 & Y2 & _ & Gs).
    destruct (strip_snap M BSok _ _ _ _ _ _ _ _ _ _ _ _ Hn Fi Htl Hr) as (sn' & r & c0 & ptr0 & Esn' & Eb & A & B & Ecf & Ds). rewrite Esn in Esn'. injection Esn' as <-.
    destruct (strip_shift M _ _ _ _ Eb A B) as (Mo & Sh & At). cbn zeta in Sh, At. rewrite Rmin_left in Y1 by lra. rewrite Rmax_right in Y2 by lra.
    assert (Eh : si_height inst = hgt) by (unfold spinst_new in Hn; apply rbind_ok in Hn as (u & _ & Hn); injection Hn as <-; reflexivity).
    unfold draw_solution in Hd. rewrite Esn in Hd. cbn [rmapM] in Hd. apply rbind_ok in Hd as (d & Ed & Hd). injection Hd as <-.
    rewrite Y1, Y2 in At. rewrite Y1 in Sh. replace (hgt - 0) with hgt in At by lra.
    assert (Ex : exists jl, export_layout (pre_of pres) (si_items inst) (fun b : bin => JStrip (r_width (p_bbox (a_obj (bn_outer b)))) (si_height inst)) sn = Ok jl).
    { eapply drawn_exported. exact Ed. }
    destruct Ex as ([jc pl u] & Ex).
    set (w := x_max (p_bbox (a_obj (bn_outer (ls_bin sn)))) - x_min (p_bbox (a_obj (bn_outer (ls_bin sn))))) in *.
    assert (Ba : bin_at (ls_bin sn) (x_min (p_bbox (a_obj (bn_outer (ls_bin sn))))) 0 (FB (strip_outline w hgt) [] [])).
    { split; cbn [fb_outer fb_holes fb_zones]; [exact Mo|exact Sh|exact At| |left].
      + unfold bin_from_strip, bin_new in Eb. repeat (apply rbind_ok in Eb as (? & _ & Eb)). injection Eb as <-. constructor.
      + unfold bin_from_strip, bin_new in Eb. repeat (apply rbind_ok in Eb as (? & _ & Eb)). injection Eb as <-. split; reflexivity. }
    destruct (snap_tree _ _ fs _ _ _ _ _ _ false _ _ _ Fi Lf Kf (Ds false ltac:(discriminate)) Ba Dt Ed Ex) as (a & eh & ph & nh & T1 & T2). cbn [jl_items] in T2. rewrite Ecf in T2.
    exists w, pl, u, (so_usage s), d, a, eh, ph, nh. split; [|split; [reflexivity|split; [exact T1|exact T2]]].
    unfold sp_export, compose_json. rewrite Esn. cbn [rmapM]. rewrite Ex. cbn [rbind].
    unfold export_layout in Ex. apply rbind_ok in Ex as (pl' & _ & Ex). injection Ex as <- <- <-. rewrite Eh. reflexivity.
  Qed.
End A.
