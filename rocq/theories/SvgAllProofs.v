(** What has been solved can be drawn. *)
From Coq Require Import List Bool Arith Lia Permutation.
From Verif Require Import Base Num GeoModel HazardModel QTModel TransfModel HpgModel CdeModel CdeSpec
  PolyModel ParserModel SimplModel SlotMapModel LayoutModel ProblemModel ProblemSpec LbfModel IoModel ParseModel SvgModel
  BaseProofs Instances ParityProofs PipProofs NormProofs XformProofs ConstructProofs RigidProofs RegionProofs RectPolyProofs SlotMapProofs LayoutProofs ProblemProofs ProblemOpsProofs
  MirrorProofs StripProofs LbfRunProofs LbfBpProofs LbfThmProofs LbfHistProofs FitProofs LbfStripThmProofs LbfSpProofs IoProofs IoThmProofs HistBinProofs HistLayoutProofs HpgShapeProofs
  ParseProofs ParseThmProofs ParseSpProofs ParseSolveProofs SvgProofs SvgTreeProofs SvgTotalProofs SvgDrawProofs SvgItemProofs SvgThmProofs.
From Coq Require Import Reals Lra.
From Verif Require Import GeoModel HazardModel QTModel TransfModel HpgModel CdeModel CdeSpec GeoSpec PlaceSpec HpgSpec ShapeSpec SimplSpec LbfModel LbfSpec IoModel IoSpec ParseModel ParseSpec SvgModel SvgSpec.
Import ListNotations.
Local Open Scope R_scope.
#[local] Existing Instance RTrig.

Lemma map_total : forall {A B} (f : A -> res B) l, (forall x, In x l -> exists y, f x = Ok y) -> exists l', rmapM f l = Ok l'.
Proof.
  intros A B f. induction l as [|a l IH]; intros H; cbn [rmapM]; [eauto|]. destruct (H a (or_introl eq_refl)) as (y & ->). cbn [rbind].
  destruct IH as (l' & ->); [intros x Hx; apply H; right; exact Hx|]. cbn [rbind]. eauto.
Qed.
Lemma map_total_nth : forall {A B} (f : A -> res B) l, (forall i x, nth_error l i = Some x -> exists y, f x = Ok y) -> exists l', rmapM f l = Ok l'.
Proof. intros A B f l H. apply map_total. intros x Hx. apply In_nth_error in Hx as (i & Hi). eauto. Qed.
Lemma data_total : forall s : poly R, p_pts s <> [] -> exists d, polygon_data s = Ok d.
Proof. intros s H. unfold polygon_data. destruct (p_pts s) as [|p ps]; [congruence|]. cbn. eauto. Qed.

Section A.
  Variable M : R.
  Context {X : Extra R} {ED : EqD (dtransf R)} {BS : BSearch} {G : Type} {RG : Rng R G}.
  Hypothesis BSok : bsearch_ok BS.
  #[local] Instance NA : Num R := RNumT Reqb M.
  Variable umax : nat.
  Variable pr : parser R.
  Hypothesis Ht : tol_ok (pr_simpl pr).
  Hypothesis Ep : @fPI R X = PI.
  Local Notation tol := (pr_simpl pr).
  Local Notation bin := (bin R (dtransf R)).
  Local Notation item := (item R).
  Local Notation layout := (layout R (dtransf R)).
  Local Notation lsnap := (lsnap R (dtransf R)).
  Local Notation solution := (solution R (dtransf R)).

  (** the bin that is drawn *)
  Lemma zone_total : forall th (b : bin) c, bin_home M b c -> (forall o, In o (fb_outer c :: fb_holes c ++ map snd (fb_zones c)) -> o <> []) -> length (th_zones th) = 10%nat ->
    exists d, zone_data th b = Ok d.
  Proof.
    intros th b c H Ne Lz. unfold zone_data. destruct (bh_zones _ _ _ H) as [(E & _)|(l & E & Eq & _ & Z)]; rewrite E; [cbn; eauto|].
    assert (K : exists l', rmapM (fun z => c <- expect (nth_error (th_zones th) (qz_quality z)) ;; rmapM (fun s => d <- polygon_data (a_obj s) ;; Ok (qz_quality z, c, d)) (qz_zones z))
                             (omap (fun z => z) (rev (map Some l))) = Ok l').
    { apply map_total. intros z Hz. apply in_omap in Hz as (z' & Hz & ->). apply in_rev in Hz. apply in_map_iff in Hz as (z0 & E0 & Hz). injection E0 as ->.
      assert (Q : (qz_quality z < 10)%nat) by (assert (In (qz_quality z) (seq 0 10)) as Hq by (rewrite <- Eq; apply in_map; exact Hz); apply in_seq in Hq; lia).
      destruct (nth_error (th_zones th) (qz_quality z)) as [co|] eqn:Ec; [|apply nth_error_None in Ec; lia]. cbn [expect rbind].
      apply map_total. intros s Hs. destruct (data_total (a_obj s)) as (d & ->); [|cbn [rbind]; eauto].
      apply Ne. right. apply in_or_app. right. assert (In (p_pts (a_obj s)) (map snd (filter (fun x => Nat.eqb (fst x) (qz_quality z)) (fb_zones c)))) as Hm
        by (rewrite (Z z Hz); apply (in_map (fun s => p_pts (a_obj s))); exact Hs).
      apply in_map_iff in Hm as (x & <- & Hx). apply filter_In in Hx as (Hx & _). apply in_map. exact Hx. }
    destruct K as (l' & ->). cbn [rbind]. eauto.
  Qed.
  Lemma at_shift_ne : forall dx dy o s, at_shift dx dy o s -> o <> [].
  Proof. intros dx dy o s (E & Md) ->. cbn [map] in E. destruct (made_sound _ Md) as (_ & W). congruence. Qed.
  Lemma at_ne : forall (b : bin) dx dy c, bin_at b dx dy c -> forall o, In o (fb_outer c :: fb_holes c ++ map snd (fb_zones c)) -> o <> [].
  Proof.
    intros b dx dy c H o [<-|Ho]; [eapply at_shift_ne, (ba_outer _ _ _ _ H)|]. apply in_app_or in Ho as [Ho|Ho].
    - destruct (F2_in_l _ _ _ _ (ba_holes _ _ _ _ H) Ho) as (s & _ & A). eapply at_shift_ne, A.
    - apply in_map_iff in Ho as (z & <- & Hz). destruct (ba_zones _ _ _ _ H) as [(_ & E)|(l & _ & Eq & Q & Z)]; [rewrite E in Hz; destruct Hz|].
      assert (In (fst z) (map (@qz_quality R) l)) as Hq by (rewrite Eq; apply in_seq; specialize (Q z Hz); lia). apply in_map_iff in Hq as (zl & E & Hl).
      assert (In (snd z) (map snd (filter (fun x => Nat.eqb (fst x) (qz_quality zl)) (fb_zones c)))) as Hm by (apply in_map, filter_In; split; [exact Hz|rewrite E; apply Nat.eqb_refl]).
      destruct (F2_in_l _ _ _ _ (Z zl Hl) Hm) as (s & _ & A). eapply at_shift_ne, A.
  Qed.

  (** the items that are drawn *)
  Definition drawable (pre : nat -> transf R) (items : list (item * nat)) : Prop :=
    forall i it q, nth_error items i = Some (it, q) -> exists it' u, drawn_item pr pre it = Ok it' /\
      it_quality it' = it_quality it /\ p_pts (it_shape it') <> [] /\ p_surr (it_shape it') = Some u /\ s_poles u <> [].
  Lemma def_total : forall pre items o i it q, drawable pre items -> nth_error items i = Some (it, q) ->
    match it_quality it with Some k => (k < length (th_zones (do_theme o)))%nat | None => True end -> exists d, item_def pr pre o it = Ok d.
  Proof.
    intros pre items o i it q H Hi Hq. destruct (H i it q Hi) as (it' & u & E & Eq & Ne & Es & Np). unfold item_def. rewrite E. cbn [rbind]. unfold item_color. rewrite Eq.
    assert (K : exists c, match it_quality it with None => Ok (th_item (do_theme o)) | Some q => c <- expect (nth_error (th_zones (do_theme o)) q) ;; Ok (blend_colors (th_item (do_theme o)) c) end = Ok c).
    { destruct (it_quality it) as [k|]; [|eauto]. destruct (nth_error (th_zones (do_theme o)) k) eqn:En; [cbn; eauto|apply nth_error_None in En; lia]. }
    destruct K as (c & ->). cbn [rbind]. destruct (data_total _ Ne) as (d & ->). cbn [rbind]. destruct (do_surr o); [|cbn [rbind]; eauto].
    unfold surrogate_data. rewrite Es. cbn [expect rbind]. destruct (s_poles u) as [|p0 ps]; [congruence|]. cbn [nth_error expect rbind]. eauto.
  Qed.

  Record drawable_snap (cells : bool) (items : list (item * nat)) (sn : lsnap) : Prop := {
    ds_si : SI (item_shape items) sn;
    ds_gs : GS sn;
    ds_fine : bin_fine (ls_bin sn);
    ds_known : forall i, In i (c_list (snap_content sn)) -> exists it q, nth_error items i = Some (it, q);
    ds_at : exists dx dy c, bin_at (ls_bin sn) dx dy c;
    ds_cells : cells = true -> cfg_cells (bn_cfg (ls_bin sn)) <> 0%nat }.
  Lemma snap_total : forall pre items o sn ptr, fine_items items -> drawable pre items ->
    (forall i it q, nth_error items i = Some (it, q) -> match it_quality it with Some k => (k < 10)%nat | None => True end) ->
    length (th_zones (do_theme o)) = 10%nat -> drawable_snap (do_grid o) items sn -> exists d, snapshot_to_svg pr pre items o sn ptr = Ok d.
  Proof.
    intros pre items o sn ptr Fi Di Qi Lz [Si Gs Fb Kn (dx & dy & c & At) Cl].
    destruct (from_snapshot_total BSok _ _ Si Gs) as (l & El). pose proof (from_snapshot_LI BSok _ _ _ Si El) as Li. pose proof (GL_from_snapshot _ _ El Gs) as Gl.
    unfold snapshot_to_svg. rewrite El. cbn [rbind].
    assert (Eb : ly_bin l = ls_bin sn /\ ly_items l = ls_items sn).
    { unfold layout_from_snapshot, layout_restore in El. apply rbind_ok in El as (? & _ & El). apply rbind_ok in El as (ce & _ & El). injection El as <-. cbn [ly_bin ly_items layout_new]. auto. }
    destruct Eb as (Eb & Eit). pose proof Li as (Gb & _).
    assert (Kl : known items l).
    { intros x Hx. unfold placed in Hx. apply in_map_iff in Hx as (pi & <- & Hx). cbn [fst]. apply Kn. unfold c_list, snap_content. cbn [snd]. rewrite <- Eit. apply in_map. exact Hx. }
    unfold layout_to_svg. rewrite Eb. rewrite <- Eb in Fb. pose proof Gb as Gb'. rewrite Eb in Gb'.
    destruct (drawn_total M BSok pr dx dy (ls_bin sn) c ptr Gb' At) as (b' & Ed).
    match goal with |- context [drawn_bin ?a ?b ?c] => replace (drawn_bin a b c) with (Ok b') by (symmetry; exact Ed) end. cbn [rbind].
    destruct (drawn_home M pr _ _ _ _ _ _ At Ed) as (Hm & _). pose proof (at_ne _ _ _ _ At) as Ne.
    destruct (data_total (a_obj (bn_outer b'))) as (d1 & ->); [rewrite (bh_outer _ _ _ Hm); apply Ne; left; reflexivity|]. cbn [rbind].
    match goal with |- context [rmapM ?f (bn_holes b')] => destruct (map_total f (bn_holes b')) as (d2 & ->) end.
    { intros h Hh. destruct (data_total (a_obj h)) as (d & ->); [|cbn [rbind]; eauto]. apply Ne. right. apply in_or_app. left. rewrite <- (bh_holes _ _ _ Hm).
      apply (in_map (fun h => p_pts (a_obj h))). exact Hh. }
    cbn [rbind]. destruct (zone_total (do_theme o) b' c Hm Ne Lz) as (d3 & ->). cbn [rbind].
    match goal with |- context [rmapM ?f items] => destruct (map_total_nth f items) as (d4 & ->) end.
    { intros i [it q] Hi. cbn [fst]. eapply def_total; [exact Di|exact Hi|]. rewrite Lz. exact (Qi _ _ _ Hi). }
    cbn [rbind]. match goal with |- context [rmapM ?f (sm_values _)] => destruct (map_total f (sm_values (ly_items l))) as (d5 & ->) end.
    { intros pi Hp. unfold item_use, item_of. destruct (Kn (pi_item pi)) as (it & q & ->); [|cbn [expect rbind]; eauto]. unfold c_list, snap_content. cbn [snd]. rewrite <- Eit. apply in_map. exact Hp. }
    cbn [rbind]. destruct (layout_tree M items Fi l Li Fb Kl) as (t & Et & _).
    assert (K : exists t, (if do_tree o then d <- tree_data (cd_qt (ly_cde l)) ([], [], []) ;; Ok (Some (transform_to_svg (t_inverse (bn_pre (ls_bin sn))), d)) else Ok None) = Ok t).
    { destruct (do_tree o); [|eauto]. rewrite Et. cbn [rbind]. eauto. }
    destruct K as (t' & ->). cbn [rbind]. destruct (do_grid o); [|cbn [rbind]; eauto].
    destruct (grid_total l Gb Gl) as (g & ->); [rewrite Eb; apply Cl; reflexivity|]. cbn [rbind]. eauto.
  Qed.
  Lemma draw_total : forall pre items o (s : solution) ptr, fine_items items -> drawable pre items ->
    (forall i it q, nth_error items i = Some (it, q) -> match it_quality it with Some k => (k < 10)%nat | None => True end) ->
    length (th_zones (do_theme o)) = 10%nat -> Forall (drawable_snap (do_grid o) items) (so_layouts s) -> exists docs, draw_solution pr pre items o s ptr = Ok docs.
  Proof. intros pre items o s ptr Fi Di Qi Lz Hs. unfold draw_solution. apply map_total. intros sn Hn. apply snap_total; auto. rewrite Forall_forall in Hs. auto. Qed.

  (** parsed items *)
  Lemma parsed_nth : forall l k xs, rmapM (fun p => parse_item pr (snd p) (fst p)) (combine (seq k (length l)) l) = Ok xs ->
    forall i x, nth_error xs i = Some x -> exists j, nth_error l i = Some j /\ parse_item pr j (k + i) = Ok x.
  Proof.
    induction l as [|j l IH]; intros k xs H i x Hi; cbn [length seq combine rmapM] in H; [injection H as <-; destruct i; discriminate|].
    apply rbind_ok in H as (y & E & H). apply rbind_ok in H as (ys & Es & H). injection H as <-. destruct i as [|i]; cbn [nth_error] in Hi.
    - injection Hi as <-. exists j. split; [reflexivity|]. rewrite Nat.add_0_r. exact E.
    - destruct (IH _ _ Es _ _ Hi) as (j' & A & B). exists j'. split; [exact A|]. rewrite <- plus_n_Sm. exact B.
  Qed.
  Lemma parsed_drawable : forall j ptr inst pres, parse umax pr j ptr = Ok (inst, pres) -> drawable (pre_of pres) (inst_items inst).
  Proof.
    intros j ptr inst pres H. destruct (parse_inv M umax pr Ht Ep _ _ _ _ H) as (fs & I & _). intros i it q Hi.
    unfold parse in H. apply rbind_ok in H as (xs & Ex & H).
    assert (K : inst_items inst = map (fun x => (fst (fst x), snd x)) xs /\ pres = map (fun x => snd (fst x)) xs).
    { destruct (jn_bins j) as [bs|], (jn_strip j) as [h|]; try discriminate.
      - apply rbind_ok in H as (bins & Eb & H). apply rbind_ok in H as (b & Ei & H). injection H as <- <-. cbn [inst_items]. destruct (inst_lists M _ _ _ Ei) as (E1 & _). auto.
      - apply rbind_ok in H as (b & Ei & H). injection H as <- <-. cbn [inst_items]. unfold spinst_new in Ei. apply rbind_ok in Ei as (u & _ & Ei). injection Ei as <-. auto. }
    destruct K as (E1 & E2). rewrite E1 in Hi. rewrite nth_error_map in Hi. destruct (nth_error xs i) as [[[it0 pre0] q0]|] eqn:Ei; [|discriminate]. cbn in Hi. injection Hi as -> ->.
    destruct (parsed_nth _ _ _ Ex _ _ Ei) as (jt & Ej & Pj). cbn [Nat.add] in Pj.
    destruct (item_total M pr Ht _ _ _ _ _ Pj) as (it' & u & A & _ & B).
    assert (Eid : it_id it = i).
    { destruct I as (_ & _ & _ & K). destruct (K i jt Ej) as (it1 & f & dx & dy & N1 & _ & Rd & _). rewrite E1, nth_error_map, Ei in N1. cbn in N1. injection N1 as -> _. exact (ir_id _ _ _ _ _ _ _ _ Rd). }
    exists it', u. split; [|exact B]. unfold drawn_item. rewrite Eid. rewrite E2. assert (Epr : pre_of (map (fun x => snd (fst x)) xs) i = pre0) by (eapply pre_nth; exact Ei). rewrite Epr. exact A.
  Qed.
  Lemma parsed_quality : forall l items pres fs, items_ok M pr l items pres fs -> (forall f, In f fs -> match fi_quality f with Some q => (q < 10)%nat | None => True end) ->
    forall i it q, nth_error items i = Some (it, q) -> match it_quality it with Some k => (k < 10)%nat | None => True end.
  Proof.
    intros l items pres fs I Q i it q Hi. destruct (items_fit M pr _ _ _ _ I) as (L & K).
    destruct (nth_error fs i) as [f|] eqn:Ef; [|exfalso; apply nth_error_None in Ef; apply nth_error_Some_lt in Hi; lia].
    destruct (K _ _ _ _ Hi Ef) as (dx & dy & _ & _ & _ & _ & E). rewrite E. apply Q. eapply nth_error_In. exact Ef.
  Qed.

  (** *** bins *)
  Lemma GL_bins : forall bins : list (bin * nat), Forall (fun b => good_bin (fst b)) bins -> Forall (fun x => forall i, GL (layout_new i (fst x))) bins.
  Proof. intros bins H. eapply Forall_impl; [|exact H]. intros b Gb i. destruct (bin_cells _ Gb) as (o & C & _). eapply GL_new. exact C. Qed.
  Lemma GL_run : forall inst ovf ops p h, Forall (fun b => good_bin (fst b)) (bi_bins inst) -> bp_run ovf inst ops = Ok (p, h) -> LPB GL GS p h.
  Proof.
    intros inst ovf ops p h Gb H. eapply (brun_LPB GL GS GL_clone GL_flush); [| | | | |apply GL_bins; exact Gb|exact H].
    - intros; eapply GL_place; eassumption.
    - intros; eapply GL_remove; eassumption.
    - intros; eapply GL_restore; eassumption.
    - intros; eapply GL_from_snapshot; eassumption.
    - intros; eapply GL_snapshot; eassumption.
  Qed.
  Local Notation made_by := (made_by M (RG := RG)).
  Record solved_snap (items : list (item * nat)) (cs : list fbin) (sn : lsnap) : Prop := {
    ss_si : SI (item_shape items) sn;
    ss_gs : GS sn;
    ss_fine : bin_fine (ls_bin sn);
    ss_items : forall i, In i (c_list (snap_content sn)) -> exists it q, nth_error items i = Some (it, q);
    ss_known : known_bin cs (ls_bin sn);
    ss_cfg : bn_cfg (ls_bin sn) = pr_cfg pr }.
  Lemma bins_snaps : forall j ptr inst pres bs bins cs fs, parse umax pr j ptr = Ok (IBP inst, pres) -> items_ok M pr (jn_items j) (bi_items inst) pres fs ->
    jn_bins j = Some bs -> jn_strip j = None -> bpinst_new (bi_items inst) bins = Ok inst -> bins_ok M umax pr bs bins cs -> clean_items fs -> clean_bins cs ->
    forall s, made_by inst s -> Forall (solved_snap (bi_items inst) cs) (so_layouts s).
  Proof.
    intros j ptr inst pres bs bins cs fs H I Eb Es Hn B Ci Cb s Hs.
    pose proof (items_fine M pr _ _ _ _ I Ci) as Fi. destruct (bins_fine M umax pr _ _ _ B Cb) as (Fb & Gb). pose proof (inst_ids _ _ _ Hn) as Ids.
    destruct (inst_lists M _ _ _ Hn) as (E1 & E2). rewrite <- E2 in Gb, Fb. pose proof Gb as Gb'.
    assert (Bc : Forall (fun x : bin * nat => bn_cfg (fst x) = pr_cfg pr) (bi_bins inst)).
    { clear - H Eb Es E2 Hn. unfold parse in H. apply rbind_ok in H as (xs & _ & H). rewrite Eb, Es in H. apply rbind_ok in H as (bb & Ebb & H).
      apply rbind_ok in H as (i & Ei & H). injection H as <- _. destruct (inst_lists M _ _ _ Ei) as (_ & E). rewrite E. exact (bins_cfg M umax pr _ _ _ _ Ebb). }
    pose proof (bins_known M umax pr _ _ _ B) as Bk. rewrite <- E2 in Bk.
    set (P := fun b : bin => known_bin cs b /\ bin_fine b /\ bn_cfg b = pr_cfg pr).
    assert (Bp : Forall (fun x : bin * nat => P (fst x)) (bi_bins inst)).
    { unfold fine_bins in Fb. rewrite Forall_forall in *. intros x Hx. split; [exact (Bk x Hx)|]. split; [exact (Fb x Hx)|exact (Bc x Hx)]. }
    assert (K : exists p h, MI inst p h /\ LPB GL GS p h /\ PB P p h /\ BInv inst p h /\ In s h).
    { destruct Hs as [(ovf & ops & p & h & Ok1 & Hr & Hs)|(cfg & g & ptr0 & p & p' & Hr)].
      - exists p, h. split; [|split; [|split; [|split; [|exact Hs]]]].
        + eapply (brun_MI BSok); [exact Ids|apply (new_MI BSok); exact Gb|exact Ok1|exact Hr].
        + eapply GL_run; eassumption.
        + eapply brun_PB; eassumption.
        + eapply run_inv; eassumption.
      - destruct (lbf_bp_run M inst Ids false _ _ _ _ _ _ Hr) as (ops & Hr' & Ck & _ & Hc).
        assert (Gi : good_inst inst) by (split; [eexists _, _; exact Hn|exact Gb]).
        pose proof (run_PI M BSok inst false ops _ p [] Ids Fi (new_PI M BSok inst Gi Fb) Ck Hr') as (PI1 & _ & Ok1).
        exists p', ([] ++ [s]). split; [|split; [|split; [|split; [|left; reflexivity]]]].
        + eapply (create_MI BSok); [exact (pi_mi _ _ _ PI1)| |exact Hc]; exact Logic.I.
        + eapply create_LPB; [|eapply GL_run; eassumption| |exact Hc]; [intros; eapply GL_snapshot; eassumption|exact Logic.I].
        + eapply create_PB; [eapply brun_PB; eassumption| |exact Hc]. exact Logic.I.
        + assert (Hr2 : bp_run false inst (place_ops ops ++ [BCreate None]) = Ok (p', [] ++ [s])).
          { unfold bp_run in *. rewrite BaseProofs.rfold_app. setoid_rewrite Hr'. cbn [rbind rfold bstep]. setoid_rewrite Hc. reflexivity. }
          eapply run_inv; eassumption. }
    destruct K as (p & h & Mi & Gl & Pb & Bi & Hs').
    apply Forall_forall. intros sn Hsn.
    destruct Mi as [_ _ _ _ Ms]. destruct Gl as [_ _ _ Gs]. destruct Pb as [_ _ _ Ps]. pose proof (b_sols _ _ _ Bi) as So. rewrite Forall_forall in Ms, Gs, Ps, So.
    specialize (Ms s Hs'). specialize (Gs s Hs'). specialize (Ps s Hs'). specialize (So s Hs'). rewrite Forall_forall in Ms, Gs, Ps.
    destruct (Ps sn Hsn) as (Kb & Fn & Ec). split.
    - exact (Ms sn Hsn).
    - exact (Gs sn Hsn).
    - exact Fn.
    - intros i Hi. destruct (sk_placed _ _ _ So) as (_ & Fo & _). rewrite Forall_forall in Fo. specialize (Fo i). 
      assert (Hl : (i < length (bi_items inst))%nat) by (apply Fo, in_flat_map; exists (snap_content sn); split; [apply in_map; exact Hsn|exact Hi]).
      destruct (nth_error (bi_items inst) i) as [[it q]|] eqn:En; [eauto|apply nth_error_None in En; lia].
    - exact Kb.
    - exact Ec.
  Qed.

  Lemma solved_drawable : forall items cs sn b, solved_snap items cs sn -> (b = true -> cfg_cells (pr_cfg pr) <> 0%nat) -> drawable_snap b items sn.
  Proof. intros items cs sn b [A1 A2 A3 A4 (k & dx & dy & c & _ & _ & At) A6] Nc. split; auto; [eauto|]. rewrite A6. exact Nc. Qed.
  Theorem drawn_bins : forall j ptr inst pres, parse umax pr j ptr = Ok (IBP inst, pres) ->
    exists bs fs cs, jn_bins j = Some bs /\ Forall2 (item_of_file tol) (jn_items j) fs /\ Forall2 (bin_of_file tol) bs cs /\
      (clean_items fs -> clean_bins cs -> (forall f, In f fs -> match fi_quality f with Some q => (q < 10)%nat | None => True end) ->
       forall s, made_by inst s -> forall o ptr', length (th_zones (do_theme o)) = 10%nat -> (do_grid o = true -> cfg_cells (pr_cfg pr) <> 0%nat) ->
       exists docs, draw_solution pr (pre_of pres) (bi_items inst) o s ptr' = Ok docs).
  Proof.
    intros j ptr inst pres H. destruct (parse_inv M umax pr Ht Ep _ _ _ _ H) as (fs & I & bs & bins & cs & Eb & Es & Hn & B). pose proof (parsed_drawable _ _ _ _ H) as Dr. cbn [inst_items] in *.
    exists bs, fs, cs. split; [exact Eb|]. split; [exact (proj1 I)|]. split; [exact (proj1 B)|]. intros Ci Cb Q s Hs o ptr' Lz Nc.
    apply (draw_total (pre_of pres) (bi_items inst) o s ptr' (items_fine M pr _ _ _ _ I Ci) Dr (parsed_quality _ _ _ _ I Q) Lz).
    eapply Forall_impl; [|exact (bins_snaps _ _ _ _ _ _ _ _ H I Eb Es Hn B Ci Cb s Hs)]. intros sn S. eapply solved_drawable; eassumption.
  Qed.

  (** *** strips *)
  Definition LC (c : cfg) (l : layout) : Prop := GL l /\ bn_cfg (ly_bin l) = c.
  Definition LS (c : cfg) (s : lsnap) : Prop := GS s /\ bn_cfg (ls_bin s) = c.
  Lemma LC_strip : forall r c ptr b, bin_from_strip r c ptr = Ok b -> forall i, LC c (layout_new i b).
  Proof.
    intros r c ptr b H i. destruct (bin_cells _ (strip_good (sym_R M) _ _ _ _ H)) as (o & C & _). split; [eapply GL_new; exact C|]. cbn [layout_new ly_bin].
    unfold bin_from_strip, bin_new in H. repeat (apply rbind_ok in H as (? & _ & H)). injection H as <-. reflexivity.
  Qed.
  Lemma LC_step : forall c ovf tl (p : sp R (dtransf R)) h o p' h', LPS (LC c) (LS c) p h -> sstep ovf tl (p, h) o = Ok (p', h') -> LPS (LC c) (LS c) p' h'.
  Proof.
    intros c ovf tl p h o p' h' I H. eapply (sstep_LPS (LC c) (LS c)); [| | | | | |exact I| |exact H].
    - intros l l' E (A & B). split; [eapply GL_flush; eassumption|unfold layout_flush in E; apply rbind_ok in E as (? & _ & E); injection E as <-; exact B].
    - intros l l' it d ptr k E (A & B). split; [eapply GL_place; eassumption|exact (HistBinProofs.place_bin (fun b => bn_cfg b = c) _ _ _ _ _ _ E B)].
    - intros l l' k b q E (A & B). split; [eapply GL_remove; eassumption|exact (HistBinProofs.remove_bin (fun b => bn_cfg b = c) _ _ _ _ _ E B)].
    - intros l l' s E (A & B) (A' & B'). split; [eapply GL_restore; eassumption|exact (HistBinProofs.restore_bin (fun b => bn_cfg b = c) _ _ _ E B)].
    - intros s l E (A & B). split; [eapply GL_from_snapshot; eassumption|exact (HistBinProofs.from_snapshot_bin (fun b => bn_cfg b = c) _ _ E B)].
    - intros l s l' E (A & B). destruct (GL_snapshot _ _ _ E A) as (A1 & A2). destruct (HistBinProofs.snapshot_bin (fun b => bn_cfg b = c) _ _ _ E B) as (B1 & B2). split; split; assumption.
    - intros r ptr b _ Eb i. destruct I as [(_ & <-) _]. eapply LC_strip. exact Eb.
  Qed.
  Lemma LC_run : forall c ovf tl ops (p : sp R (dtransf R)) h p' h', LPS (LC c) (LS c) p h -> rfold (sstep ovf tl) ops (p, h) = Ok (p', h') -> LPS (LC c) (LS c) p' h'.
  Proof.
    intros c ovf tl. induction ops as [|o ops IH]; intros p h p' h' I H; cbn [rfold] in H; [injection H as <- <-; exact I|].
    apply rbind_ok in H as ([p1 h1] & E & H). eapply IH; [|exact H]. eapply LC_step; eassumption.
  Qed.
  Lemma strip_snap : forall items hgt inst fuel tl c cfg (g : G) ptr p s p', spinst_new items hgt = Ok inst -> fine_items items -> 0 <= tl ->
    lbf_sp fuel tl inst c cfg g ptr = Ok (Some (p, s, p')) -> exists sn r c0 ptr0, so_layouts s = [sn] /\ bin_from_strip r c0 ptr0 = Ok (ls_bin sn) /\ x_min r <= x_max r /\ y_min r <= y_max r /\
      bn_cfg (ls_bin sn) = c /\ forall b, (b = true -> cfg_cells c <> 0%nat) -> drawable_snap b items sn.
  Proof.
    intros items hgt inst fuel tl c cfg g ptr p s p' Hn Fi Htl Hr.
    assert (Ei : si_items inst = items) by (unfold spinst_new in Hn; apply rbind_ok in Hn as (u & _ & Hn); injection Hn as <-; reflexivity).
    destruct (lbf_sp_corner M BSok _ _ _ _ _ _ _ _ _ _ _ _ Hn Fi Htl Hr) as (sn & r & c0 & ptr0 & Esn & Eb & A & B).
    destruct (strip_shift M _ _ _ _ Eb A B) as (Mo & Sh & At). cbn zeta in Sh, At.
    destruct (lbf_sp_packs M BSok _ _ _ _ _ _ _ _ _ _ _ _ Hn Fi Hr) as (sn' & Esn' & Pk & _). rewrite Esn in Esn'. injection Esn' as <-.
    pose proof Fi as Fi'. rewrite <- Ei in Fi.
    pose proof (sinst_ids _ _ _ Hn) as Ids. destruct (lbf_sp_run M BSok _ _ _ false _ _ _ _ _ _ _ _ _ Hn Hr) as (p0 & ops & ptr1 & p1 & E0 & C1 & R1 & Efit & Ec & _).
    assert (S0 : LPS (LC c) (LS c) p0 []).
    { unfold sp_new in E0. apply rbind_ok in E0 as (b & E0 & X0). injection X0 as <-. split; [|constructor]. cbn [sp_layout]. eapply LC_strip. exact E0. }
    unfold sp_run in R1. rewrite E0 in R1. cbn [rbind] in R1. pose proof (LC_run _ _ _ _ _ _ _ _ S0 R1) as S1.
    assert (S2 : LPS (LC c) (LS c) p1 []).
    { eapply (LC_step c false tl p [] (SFit ptr1)); [exact S1|]. cbn [sstep]. setoid_rewrite Efit. reflexivity. }
    assert (S3 : LPS (LC c) (LS c) p' [s]).
    { eapply (LC_step c false tl p1 [] SCreate); [exact S2|]. cbn [sstep]. setoid_rewrite Ec. reflexivity. }
    destruct S3 as [_ S3]. inversion S3 as [|? ? S4 _]; clear S3. rewrite Esn in S4. inversion S4 as [|? ? (S5 & S6) _]; subst x l.
    pose proof (sp_new_SPInv M BSok _ _ _ _ _ E0) as Q0. destruct (srun_grows M BSok inst false tl Ids Fi _ _ _ _ Q0 C1 R1) as (Q1 & _).
    assert (Q2 : SPInv M inst p1).
    { clear - Q1 Efit Ids Fi BSok. unfold fit_strip in Efit. apply rbind_ok in Efit as (pz & Ef & Z). apply rbind_ok in Z as (? & _ & Z). injection Z as ->. unfold modify_strip_centered in Ef.
      destruct (match occupied_range (sp_layout p) with Some r => r | None => (f0, f0) end) as [x0 y0]. exact (proj1 (modify_SPInv M BSok _ _ _ _ _ Ids Fi Q1 Ef)). }
    apply sp_create_spec in Ec as (sn1 & l1 & Es1 & _ & Esol & _).
    assert (Ex : sn1 = sn) by (rewrite Esol in Esn; cbn [so_layouts] in Esn; injection Esn as ->; reflexivity). subst sn1.
    exists sn, r, c0, ptr0. split; [exact Esn|]. split; [exact Eb|]. split; [exact A|]. split; [exact B|]. split; [exact S6|]. intros b Nc. split.
    - rewrite <- Ei. exact (proj2 (snap_SI BSok _ _ _ _ (sm_layout _ _ _ (q_smi _ _ _ Q2)) Es1)).
    - exact S5.
    - eapply strip_fine. exact Eb.
    - intros i Hi. unfold c_list, snap_content in Hi. cbn [snd] in Hi. apply in_map_iff in Hi as (pi & <- & Hi). destruct Pk as (_ & _ & _ & Tn).
      destruct (Tn (pi_item pi, pi_dt pi)) as (it & q & a & Ni & _); [unfold snap_placed; apply in_map_iff; exists pi; auto|]. eauto.
    - eexists _, _, (FB (strip_outline _ _) [] []). split; cbn [fb_outer fb_holes fb_zones]; [exact Mo|exact Sh|exact At| |left].
      + unfold bin_from_strip, bin_new in Eb. repeat (apply rbind_ok in Eb as (? & _ & Eb)). injection Eb as <-. constructor.
      + unfold bin_from_strip, bin_new in Eb. repeat (apply rbind_ok in Eb as (? & _ & Eb)). injection Eb as <-. split; reflexivity.
    - rewrite S6. exact Nc.
  Qed.
  Theorem drawn_strip : forall j ptr inst pres, parse umax pr j ptr = Ok (ISP inst, pres) ->
    exists hgt fs, jn_strip j = Some hgt /\ Forall2 (item_of_file tol) (jn_items j) fs /\
      (clean_items fs -> (forall f, In f fs -> match fi_quality f with Some q => (q < 10)%nat | None => True end) ->
       forall fuel tl c cfg (g : G) ptr' p s p', 0 <= tl -> lbf_sp fuel tl inst c cfg g ptr' = Ok (Some (p, s, p')) ->
       forall o ptr'', length (th_zones (do_theme o)) = 10%nat -> (do_grid o = true -> cfg_cells c <> 0%nat) ->
       exists docs, draw_solution pr (pre_of pres) (si_items inst) o s ptr'' = Ok docs).
  Proof.
    intros j ptr inst pres H. destruct (parse_inv M umax pr Ht Ep _ _ _ _ H) as (fs & I & hgt & _ & Es & Hn). pose proof (parsed_drawable _ _ _ _ H) as Dr. cbn [inst_items] in *.
    exists hgt, fs. split; [exact Es|]. split; [exact (proj1 I)|]. intros Ci Q fuel tl c cfg g ptr' p s p' Htl Hr o ptr'' Lz Nc.
    pose proof (items_fine M pr _ _ _ _ I Ci) as Fi. destruct (strip_snap _ _ _ _ _ _ _ _ _ _ _ _ Hn Fi Htl Hr) as (sn & r & c0 & ptr0 & Esn & _ & _ & _ & _ & Ds).
    apply (draw_total (pre_of pres) (si_items inst) o s ptr'' Fi Dr (parsed_quality _ _ _ _ I Q) Lz). rewrite Esn. constructor; [|constructor]. apply Ds. exact Nc.
  Qed.
End A.
