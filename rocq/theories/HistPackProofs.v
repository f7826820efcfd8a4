(** Every history of checked placements leaves packings behind, in the problem and in every
    solution created on the way. *)
From Coq Require Import List Bool Arith ZArith Lia Permutation.
From Verif Require Import Base Num GeoModel HazardModel QTModel TransfModel HpgModel CdeModel CdeSpec
  PolyModel SlotMapModel LayoutModel ProblemModel ProblemSpec LbfModel BaseProofs HazVecProofs QTProofs CdeProofs CdeOpsProofs CdeHistProofs CdeThmProofs SlotMapProofs ProblemProofs
  ProblemOpsProofs ProblemThmProofs StripProofs LayoutProofs MirrorProofs Instances RigidProofs XformProofs RegionProofs GeoPrimProofs GeoRectProofs QTGeoProofs CdeGeoProofs CdeGeoThmProofs
  RectPolyProofs LbfSpec LbfProofs LbfRunProofs LbfSpProofs HistPackSpec.
From Coq Require Import Reals Lra.
From Verif Require Import GeoModel HazardModel QTModel TransfModel HpgModel CdeModel CdeSpec GeoSpec PlaceSpec ShapeSpec LbfModel LbfSpec HistPackSpec.
Import ListNotations.
Local Open Scope R_scope.

Section H.
  Variable M : R.
  #[local] Instance NHR : Num R := RNumT Reqb M.
  #[local] Existing Instance RTrig.
  Context {ED : EqD (dtransf R)} {BS : BSearch}.
  Hypothesis BSok : bsearch_ok BS.
  Local Notation dtransf := (dtransf R).
  Local Notation layout := (layout R dtransf).
  Local Notation lsnap := (lsnap R dtransf).
  Local Notation solution := (solution R dtransf).
  Local Notation bin := (bin R dtransf).
  Local Notation bp := (bp R dtransf).
  Local Notation sp := (sp R dtransf).
  Local Notation pitem := (pitem R dtransf).

  Definition places (m : smap pitem) : list (nat * dtransf) := map (fun p => (pi_item p, pi_dt p)) (sm_values m).
  (** what is kept of every content: bin and items *)
  Definition PC (items : list (item R * nat)) (okb : bin -> Prop) (c : nat * bin * smap pitem) : Prop :=
    okb (snd (fst c)) /\ bin_fine (snd (fst c)) /\ packed items (snd (fst c)) (places (snd c)).
  Lemma packed_incl : forall items (b : bin) pl pl', NoDup pl' -> incl pl' pl -> packed items b pl -> packed items b pl'.
  Proof.
    intros items b pl pl' Nd Ic (A & B & C & E). split; [exact Nd|]. split; [|split].
    - intros x y p Hx Hy. apply B; apply Ic; assumption.
    - intros x it q h p Hx. apply C. apply Ic. exact Hx.
    - intros x Hx. apply E. apply Ic. exact Hx.
  Qed.
  Lemma remove_PC : forall items okb cat (l l' : layout) k b pi, LI cat l -> layout_remove l k b = Ok (pi, l') -> PC items okb (content l) -> PC items okb (content l').
  Proof.
    intros items okb cat l l' k b pi L H (A & B & C). apply remove_content in H as (_ & Eb & Rm). unfold PC, content in *. cbn [fst snd] in *. rewrite Eb.
    split; [exact A|]. split; [exact B|]. pose proof (remove_perm _ _ _ _ (proj1 (proj1 (proj2 L))) Rm) as P.
    apply (Permutation_map (fun p : pitem => (pi_item p, pi_dt p))) in P. cbn [map] in P. fold (places (ly_items l)) (places (ly_items l')) in P.
    apply (packed_incl items _ (places (ly_items l))); [| |exact C].
    - pose proof (Permutation_NoDup P (proj1 C)) as Nd. inversion Nd. assumption.
    - intros x Hx. eapply Permutation_in; [symmetry; exact P|]. right. exact Hx.
  Qed.
  Lemma contents_PC : forall items okb (ls ls' : list layout), map content ls' = map content ls ->
    Forall (fun l => PC items okb (content l)) ls -> Forall (fun l => PC items okb (content l)) ls'.
  Proof.
    intros items okb ls ls' E H. rewrite Forall_forall in *. intros l Hl. apply (in_map content) in Hl. rewrite E in Hl.
    apply in_map_iff in Hl as (l0 & E0 & H0). rewrite <- E0. auto.
  Qed.

  (** *** bin packing *)
  Record HPI (inst : bpinst R dtransf) (p : bp) (h : list solution) : Prop := {
    hp_mi : MI inst p h;
    hp_inv : BInv inst p h;
    hp_lay : Forall (fun l => PC (bi_items inst) (fun b => In b (map fst (bi_bins inst))) (content l)) (bp_layouts p);
    hp_sols : Forall (fun s => Forall (fun sn => PC (bi_items inst) (fun b => In b (map fst (bi_bins inst))) (snap_content sn)) (so_layouts s)) h
  }.
  Lemma new_HPI : forall inst, good_inst inst -> HPI inst (bp_new inst) [].
  Proof.
    intros inst (_ & G). split; [apply (new_MI BSok); exact G|apply new_inv|constructor..].
  Qed.
  Lemma HPI_PInv : forall inst p h, fine_bins (bi_bins inst) -> HPI inst p h -> PInv M inst p.
  Proof.
    intros inst p h Fb [[A1 A2 A3 A4 A5] I L _].
    assert (T : Forall (fun l => (bin_fine (ly_bin l) /\ In (ly_bin l) (map fst (bi_bins inst))) /\ placed l = []) (bp_templates p)).
    { rewrite (b_tmpl _ _ _ I). cbn [bp_new bp_templates]. rewrite Forall_map, Forall_forall. intros [i [b q]] H. apply in_combine_r in H. cbn.
      unfold fine_bins in Fb. rewrite Forall_forall in Fb. split; [split; [exact (Fb _ H)|]|reflexivity]. apply in_map_iff. exists (b, q). auto. }
    split.
    - split; auto.
    - apply Forall_app. split; [|eapply Forall_impl; [|exact T]; intros l H; apply H].
      eapply Forall_impl; [|exact L]. intros l (B & C & _). split; assumption.
    - eapply Forall_impl; [|exact L]. intros l (B & C & E). exact E.
    - eapply Forall_impl; [|exact T]. intros l H. apply H.
  Qed.
  Lemma dereg_lay : forall (P : layout -> Prop) (p p' : bp) li, Forall P (bp_layouts p) -> bp_deregister_layout p li = Ok p' -> Forall P (bp_layouts p').
  Proof.
    intros P p p' [i|t] I2 H; [|discriminate]. unfold bp_deregister_layout in H.
    apply rbind_ok in H as ([l ls] & E & H). apply expect_ok in E. apply vremove_split in E as (a & b & Es & -> & _).
    apply rbind_ok in H as (bins & Eb & H). apply rbind_ok in H as (m & Em & H). injection H as <-.
    rewrite Es in I2. apply Forall_app in I2 as (A & B). inversion B; subst. cbn [bp_layouts]. apply Forall_app. auto.
  Qed.
  Lemma step_HPI : forall inst ovf p h o p' h', ids_ok inst -> fine_items (bi_items inst) -> fine_bins (bi_bins inst) -> HPI inst p h ->
    match o with BPlace o _ => checked p o | _ => True end -> bstep ovf (p, h) o = Ok (p', h') -> HPI inst p' h' /\ bop_ok p o.
  Proof.
    intros inst ovf p h o p' h' Ids Fi Fb I C H. pose proof (HPI_PInv _ _ _ Fb I) as Pi. pose proof I as [Mi Bi Ly So].
    assert (V : bop_ok p o /\ match o with BPlace _ _ => Forall (fun l => PC (bi_items inst) (fun b => In b (map fst (bi_bins inst))) (content l)) (bp_layouts p') | _ => True end).
    { destruct o as [o ptr| | | | |]; try (split; exact Logic.I). cbn [bstep] in H. apply rbind_ok in H as ([r p1] & E & H). injection H as <- <-.
      destruct (place_PI M BSok inst p o ptr r p1 Ids Fi Pi C E) as (P' & V). split; [exact V|].
      destruct P' as [_ B' K' _]. apply Forall_app in B' as (B' & _). rewrite Forall_forall in *. intros l Hl. destruct (B' l Hl) as (X1 & X2).
      split; [exact X2|]. split; [exact X1|exact (K' l Hl)]. }
    destruct V as (V & Lp). split; [|exact V].
    pose proof (bstep_MI BSok inst ovf p h o p' h' Ids Mi V H) as Mi'. pose proof (step_inv inst ovf p h o p' h' Ids Bi H) as Bi'.
    destruct o as [o ptr|li k b|li|old|k|]; cbn [bstep] in H.
    - apply rbind_ok in H as ([r p1] & E & H). injection H as <- <-. split; auto.
    - apply rbind_ok in H as ([r p1] & E & H). injection H as <- <-. split; auto.
      destruct li as [i|t]; [|discriminate]. unfold bp_remove in E.
      apply rbind_ok in E as (l & El & E). apply expect_ok in El.
      apply rbind_ok in E as ([pi l'] & Er & E). apply rbind_ok in E as (p2 & E2 & E).
      apply rbind_ok in E as (m & Em & E). injection E as <- <-. cbn [bp_layouts]. apply nth_error_In in El.
      assert (L' : PC (bi_items inst) (fun b => In b (map fst (bi_bins inst))) (content l')).
      { pose proof (m_layouts _ _ _ Mi) as Ll. rewrite Forall_forall in Ll, Ly. eapply remove_PC; [exact (Ll l El)|exact Er|exact (Ly l El)]. }
      destruct (layout_is_empty l'); [|injection E2 as <-; cbn [bp_layouts]; apply vset_forall; assumption].
      eapply dereg_lay; [|exact E2]. cbn [bp_layouts]. apply vset_forall; assumption.
    - apply rbind_ok in H as (p1 & E & H). injection H as <- <-. split; auto. eapply dereg_lay; eassumption.
    - apply rbind_ok in H as (old' & Eo & H). apply rbind_ok in H as ([s p1] & E & H). injection H as <- <-.
      assert (Ho : match old' with Some s0 => In s0 h | None => True end).
      { destruct old as [k|]; [|injection Eo as <-; exact Logic.I].
        apply rbind_ok in Eo as (s' & Es & Eo). injection Eo as <-. apply expect_ok in Es. exact (nth_error_In _ _ Es). }
      destruct (create_content _ _ _ _ _ _ Bi Ho E) as (sl & E1 & E2 & E3 & E4 & _). split; auto.
      + rewrite E2. eapply contents_PC; [exact E3|exact Ly].
      + apply Forall_app. split; [exact So|]. constructor; [|constructor]. rewrite <- E1. rewrite Forall_forall. intros sn Hs.
        apply (in_map snap_content) in Hs. rewrite E4 in Hs. apply in_map_iff in Hs as (l & <- & Hl). rewrite Forall_forall in Ly. exact (Ly l Hl).
    - apply rbind_ok in H as (s & Es & H). apply expect_ok, nth_error_In in Es. apply rbind_ok in H as (p1 & E & H). injection H as <- <-. split; auto.
      pose proof (restore_layouts _ _ _ _ _ _ Bi Es E) as P. rewrite Forall_forall. intros l Hl. apply (in_map content) in Hl.
      apply (Permutation_in _ P) in Hl. apply in_map_iff in Hl as (sn & <- & Hn). rewrite Forall_forall in So. specialize (So s Es). rewrite Forall_forall in So. exact (So sn Hn).
    - apply rbind_ok in H as (p1 & E & H). injection H as <- <-. split; auto.
      unfold bp_flush in E. apply rbind_ok in E as (ls & E & H). injection H as <-. cbn [bp_layouts].
      eapply contents_PC; [apply flush_all_content; exact E|exact Ly].
  Qed.
  Lemma run_HPI : forall inst ovf ops p h p' h', ids_ok inst -> fine_items (bi_items inst) -> fine_bins (bi_bins inst) -> HPI inst p h ->
    bchecked ovf (p, h) ops -> rfold (bstep ovf) ops (p, h) = Ok (p', h') -> HPI inst p' h'.
  Proof.
    intros inst ovf. induction ops as [|o ops IH]; intros p h p' h' Ids Fi Fb I C H; cbn [rfold] in H.
    - injection H as <- <-. exact I.
    - apply rbind_ok in H as ([p1 h1] & E & H). cbn [bchecked fst] in C. destruct C as (C1 & C2). rewrite E in C2.
      destruct (step_HPI _ _ _ _ _ _ _ Ids Fi Fb I C1 E) as (I1 & _). eapply IH; eassumption.
  Qed.
  (** checked histories meet the conditions of the theorems about valid ones *)
  Lemma checked_ok : forall inst ovf ops p h, ids_ok inst -> fine_items (bi_items inst) -> fine_bins (bi_bins inst) -> HPI inst p h ->
    bchecked ovf (p, h) ops ->
    (forall p' h', rfold (bstep ovf) ops (p, h) = Ok (p', h') -> bops_ok ovf (p, h) ops).
  Proof.
    intros inst ovf. induction ops as [|o ops IH]; intros p h Ids Fi Fb I C p' h' H; cbn [rfold] in H; [exact Logic.I|].
    apply rbind_ok in H as ([p1 h1] & E & H). cbn [bchecked fst] in C. destruct C as (C1 & C2). rewrite E in C2.
    destruct (step_HPI _ _ _ _ _ _ _ Ids Fi Fb I C1 E) as (I1 & V). cbn [bops_ok fst]. split; [exact V|]. rewrite E.
    eapply IH; eauto.
  Qed.
  Lemma bin_history : forall items bins inst ovf ops p h, bpinst_new items bins = Ok inst -> Forall (fun b => good_bin (fst b)) bins ->
    fine_items items -> fine_bins bins -> bchecked ovf (bp_new inst, []) ops -> bp_run ovf inst ops = Ok (p, h) ->
    bi_items inst = items /\ bi_bins inst = bins /\ ids_ok inst /\ HPI inst p h /\ bops_ok ovf (bp_new inst, []) ops.
  Proof.
    intros items bins inst ovf ops p h Hn Gb Fi Fb C H. pose proof (inst_ids _ _ _ Hn) as Ids.
    assert (Ei : bi_items inst = items /\ bi_bins inst = bins) by (unfold bpinst_new in Hn; repeat (apply rbind_ok in Hn as (? & _ & Hn)); injection Hn as <-; auto).
    destruct Ei as (Ei & Eb). rewrite <- Ei in Fi. rewrite <- Eb in Fb, Gb.
    assert (I0 : HPI inst (bp_new inst) []) by (apply new_HPI; split; [eauto|exact Gb]).
    split; [exact Ei|]. split; [exact Eb|]. split; [exact Ids|]. split; [eapply run_HPI; eassumption|].
    eapply checked_ok; eassumption.
  Qed.
  Theorem bp_history_packs : forall items bins inst ovf ops p h, bpinst_new items bins = Ok inst -> Forall (fun b => good_bin (fst b)) bins ->
    fine_items items -> fine_bins bins -> bchecked ovf (bp_new inst, []) ops -> bp_run ovf inst ops = Ok (p, h) ->
    Forall (fun l => In (ly_bin l) (map fst bins) /\ packed items (ly_bin l) (placed l)) (bp_layouts p) /\ Forall (sol_packed items bins) h.
  Proof.
    intros items bins inst ovf ops p h Hn Gb Fi Fb C H. destruct (bin_history _ _ _ _ _ _ _ Hn Gb Fi Fb C H) as (Ei & Eb & _ & I & _).
    destruct I as [_ _ L S]. rewrite Ei, Eb in *. split.
    - eapply Forall_impl; [|exact L]. intros l (A & _ & K). split; assumption.
    - eapply Forall_impl; [|exact S]. intros s Q. unfold sol_packed. eapply Forall_impl; [|exact Q]. intros sn (A & _ & K). split; assumption.
  Qed.
  Theorem bp_checked_valid : forall items bins inst ovf ops p h, bpinst_new items bins = Ok inst -> Forall (fun b => good_bin (fst b)) bins ->
    fine_items items -> fine_bins bins -> bchecked ovf (bp_new inst, []) ops -> bp_run ovf inst ops = Ok (p, h) -> bops_ok ovf (bp_new inst, []) ops.
  Proof. intros items bins inst ovf ops p h Hn Gb Fi Fb C H. apply (bin_history _ _ _ _ _ _ _ Hn Gb Fi Fb C H). Qed.

  (** *** what the engine says is whether the items would still be packed *)
  Lemma feasible_accepted : forall items (l : layout) s irr, fine_items items -> LI (item_shape items) l -> bin_fine (ly_bin l) -> known items l ->
    good_shape s -> ~ In BinExterior irr -> feasible s irr (l_facts M items l) -> ask (ly_cde l) (AskPoly s irr) = Ok TFalse.
  Proof.
    intros items l s irr Gi L Gb K Gs Ne Fe.
    assert (A : ask (ly_cde l) (AskPoly s irr) = Ok (answer (cfg_depth (bn_cfg (ly_bin l))) (bin_box (ly_bin l)) (l_facts M items l) (AskPoly s irr)))
      by (apply (l_ask M items l s irr L); exact (good_wf _ Gs)).
    rewrite A. cbn [answer]. f_equal. pose proof (l_framed M items l Gb) as Fr. pose proof (l_good M items Gi l Gb K) as Gf.
    destruct (opoly (cfg_depth (bn_cfg (ly_bin l))) (bin_box (ly_bin l)) s irr (l_facts M items l)) eqn:Eo; [exfalso|reflexivity].
    set (f0 := fact_of (hazard_new (D := dtransf) BinExterior (bn_outer (ly_bin l)))).
    assert (H0 : In f0 (l_facts M items l)) by (apply in_or_app; left; left; reflexivity).
    assert (Go : good_shape (a_obj (bn_outer (ly_bin l)))) by exact (Gf f0 H0).
    assert (Ins : box_inside (bin_box (ly_bin l)) s).
    { assert (V : forall v, In v (p_pts s) -> in_open_rect (p_bbox (a_obj (bn_outer (ly_bin l)))) v).
      { intros v Hv. apply even_odd_outer; [exact Go|]. apply (Fe f0 H0 eq_refl); [exact Ne|]. left. apply vertex_border. exact Hv. }
      intros p Hp. apply (inflate_sub (p_bbox (a_obj (bn_outer (ly_bin l))))); [|apply proper_nonempty, (gs_proper _ Go)].
      destruct (gs_box _ Gs) as (_ & (v1 & I1 & E1) & (v2 & I2 & E2) & (v3 & I3 & E3) & (v4 & I4 & E4)).
      apply V in I1, I2, I3, I4. unfold in_rect, in_open_rect in *. lra. }
    assert (Sf : sound_facts (l_facts M items l)) by (intros f Hf; apply good_sound, Gf, Hf).
    destruct (opoly_true (cfg_depth (bn_cfg (ly_bin l))) (bin_box (ly_bin l)) (l_facts M items l) Fr Sf s Gs Ins irr Gf Eo) as (f & p & Hf & Ni & Rp & Bl).
    refine (Fe f Hf _ Ni p Rp Bl). unfold l_facts in Hf. apply in_app_or in Hf as [Hf|Hf].
    - apply in_map_iff in Hf as (h & <- & Hh). clear -Hh. unfold bin_statics, bin_hazards in Hh. destruct Hh as [<-|Hh]; [reflexivity|]. apply in_app_or in Hh as [Hh|Hh].
      * apply in_map_iff in Hh as (x & <- & _). reflexivity.
      * apply in_flat_map in Hh as (z & _ & Hh). apply in_map_iff in Hh as (x & <- & _). reflexivity.
    - apply in_map_iff in Hf as (x & <- & _). reflexivity.
  Qed.
  Lemma answered : forall items (l : layout) s irr, LI (item_shape items) l -> good_shape s ->
    ask (ly_cde l) (AskPoly s irr) = Ok TFalse \/ ask (ly_cde l) (AskPoly s irr) = Ok TTrue.
  Proof.
    intros items l s irr L Gs.
    assert (A : ask (ly_cde l) (AskPoly s irr) = Ok (answer (cfg_depth (bn_cfg (ly_bin l))) (bin_box (ly_bin l)) (l_facts M items l) (AskPoly s irr)))
      by (apply (l_ask M items l s irr L); exact (good_wf _ Gs)).
    rewrite A. cbn [answer]. destruct (opoly _ _ _ _ _); [right|left]; reflexivity.
  Qed.
  Lemma static_known : forall items (l : layout) h, LI (item_shape items) l -> In h (bin_statics (ly_bin l)) ->
    In (h_ent h) (map (@h_ent R dtransf) (all_hazards (ly_cde l))).
  Proof.
    intros items l h (_ & _ & Rl) Hh. pose proof (related_registered _ _ _ _ _ _ _ Rl) as P.
    apply (Permutation_map (@f_ent R dtransf)) in P. unfold registered in P. rewrite map_map in P.
    assert (E : map (fun x => f_ent (obs_of x)) (all_hazards (ly_cde l)) = map (@h_ent R dtransf) (all_hazards (ly_cde l))) by reflexivity.
    rewrite E in P. apply (Permutation_in _ (Permutation_sym P)). rewrite map_app. apply in_or_app. left. rewrite map_map.
    apply in_map_iff. exists h. split; [reflexivity|exact Hh].
  Qed.
  Lemma accepted_packs : forall items (l : layout) it q irr i d, fine_items items -> LI (item_shape items) l -> bin_fine (ly_bin l) ->
    packed items (ly_bin l) (placed l) -> nth_error items i = Some (it, q) -> tolerated l it irr -> turned_ok it d ->
    (passes l it irr (compose d) <-> packed items (ly_bin l) ((i, d) :: placed l)).
  Proof.
    intros items l it q irr i d Gi L Gb Pk Hi Tl Tn. split.
    - intros Ps. apply (packed_cons M items Gi l it irr q i d L Gb Pk Hi Tl Ps Tn).
    - intros (A & B & C & _). unfold passes. pose proof (packed_known M items l Pk) as K.
      destruct (cat_good M items Gi _ _ _ Hi) as (Ec & Gs).
      apply (feasible_accepted items l (tr_poly (compose d) (it_shape it)) irr Gi L Gb K).
      + exact (good_tr_poly (compose d) _ (rigid_compose d) Gs).
      + intros X. apply Tl in X as (_ & k & z & X & _). discriminate.
      + intros f Hf Ha Ni p Rp Bl. assert (Cp : covers items (i, d) p) by (apply (covers_at M items i it q d p Hi); exact Rp).
        unfold l_facts in Hf. apply in_app_or in Hf as [Hf|Hf].
        * apply in_map_iff in Hf as (h & <- & Hh). refine (C (i, d) it q h p (or_introl eq_refl) Hi Hh _ Cp Bl).
          intros T. apply Ni. apply Tl. split; [exact (static_known items l h L Hh)|exact T].
        * apply in_map_iff in Hf as ([j e] & <- & Hx). destruct (K _ Hx) as (ity & qy & Ey). cbn [fst] in Ey.
          assert (Cy : covers items (j, e) p).
          { apply (covers_at M items j ity qy e p Ey). unfold blocked in Bl. cbn in Bl. destruct (cat_good M items Gi _ _ _ Ey) as (Ey' & _).
            unfold shape_at in Bl. rewrite Ey' in Bl. exact Bl. }
          pose proof (B (i, d) (j, e) p (or_introl eq_refl) (or_intror Hx) Cp Cy) as E. inversion A as [|? ? Nx _]; subst. rewrite E in Nx. contradiction.
  Qed.
  Theorem bp_engine_decides : forall items bins inst ovf ops p h li l i it q d irr, bpinst_new items bins = Ok inst -> Forall (fun b => good_bin (fst b)) bins ->
    fine_items items -> fine_bins bins -> bchecked ovf (bp_new inst, []) ops -> bp_run ovf inst ops = Ok (p, h) ->
    target p li = Some l -> nth_error items i = Some (it, q) -> tolerated l it irr -> turned_ok it d ->
    let a := ask (ly_cde l) (AskPoly (tr_poly (compose d) (it_shape it)) irr) in
    (a = Ok TFalse <-> packed items (ly_bin l) ((i, d) :: placed l)) /\
    (a = Ok TTrue <-> ~ packed items (ly_bin l) ((i, d) :: placed l)).
  Proof.
    intros items bins inst ovf ops p h li l i it q d irr Hn Gb Fi Fb C H Tg Hi Tl Tn a.
    destruct (bin_history _ _ _ _ _ _ _ Hn Gb Fi Fb C H) as (Ei & Eb & _ & I & _). rewrite <- Eb in Fb. pose proof (HPI_PInv _ _ _ Fb I) as [Mi Bi Pk Em].
    assert (Ll : LI (item_shape items) l /\ bin_fine (ly_bin l) /\ packed items (ly_bin l) (placed l)).
    { rewrite <- Ei. apply Forall_app in Bi as (Bl & Bt). destruct li as [j|t]; cbn [target] in Tg; apply nth_error_In in Tg.
      - split; [|split]; [pose proof (m_layouts _ _ _ Mi) as Z|pose proof Bl as Z|pose proof Pk as Z]; rewrite Forall_forall in Z; [exact (Z l Tg)|exact (proj1 (Z l Tg))|exact (Z l Tg)].
      - split; [|split]; [pose proof (m_templates _ _ _ Mi) as Z|pose proof Bt as Z|]; [rewrite Forall_forall in Z; [exact (Z l Tg)||exact (proj1 (Z l Tg))]..|].
        rewrite Forall_forall in Em. rewrite (Em l Tg). apply packed_nil. }
    destruct Ll as (Ll & Bf & Pl). pose proof (accepted_packs items l it q irr i d Fi Ll Bf Pl Hi Tl Tn) as Q. unfold passes in Q. fold a in Q.
    split; [exact Q|]. rewrite <- Q. destruct (cat_good M items Fi _ _ _ Hi) as (_ & Gs).
    assert (E : a = Ok TFalse \/ a = Ok TTrue) by exact (answered items l (tr_poly (compose d) (it_shape it)) irr Ll (good_tr_poly (compose d) _ (rigid_compose d) Gs)).
    destruct E as [E|E]; rewrite E; split; congruence.
  Qed.

  (** *** strips *)
  Record HSI (inst : spinst R) (p : sp) (h : list solution) : Prop := {
    hs_mi : SMI inst p h;
    hs_inv : SInv inst p h;
    hs_lay : PC (si_items inst) (fun b => exists r c ptr, bin_from_strip r c ptr = Ok b) (content (sp_layout p));
    hs_sols : Forall (fun s => Forall (fun sn => PC (si_items inst) (fun b => exists r c ptr, bin_from_strip r c ptr = Ok b) (snap_content sn)) (so_layouts s)) h
  }.
  Lemma SInv_nil : forall inst (p : sp) h, SInv inst p h -> SInv inst p [].
  Proof.
    intros inst p h [A1 A2 A3 A4 A5 A6]. split; auto; try constructor; cbn [srecorded flat_map]; destruct A3 as [C1 C2 C3].
    - intros c [<-|[]]. apply C1. left. reflexivity.
    - intros c [<-|[]]. apply C2. left. reflexivity.
    - intros c c' [<-|[]] [<-|[]] _. reflexivity.
  Qed.
  Lemma HSI_SPInv : forall inst p h, HSI inst p h -> SPInv M inst p.
  Proof.
    intros inst p h [[A1 A2 A3] I (B1 & B2 & B3) _]. split.
    - split; auto.
    - eapply SInv_nil. exact I.
    - exact B1.
    - exact B3.
  Qed.
  Lemma SPInv_PC : forall inst p, SPInv M inst p -> PC (si_items inst) (fun b => exists r c ptr, bin_from_strip r c ptr = Ok b) (content (sp_layout p)).
  Proof. intros inst p I. split; [exact (q_strip _ _ _ I)|]. split; [exact (q_fine M _ _ I)|exact (q_packed _ _ _ I)]. Qed.
  Lemma sp_new_HSI : forall inst w c ptr p, sp_new inst w c ptr = Ok p -> HSI inst p [].
  Proof.
    intros inst w c ptr p H. pose proof (sp_new_SPInv M BSok _ _ _ _ _ H) as I. split; [exact (q_smi _ _ _ I)|exact (q_inv _ _ _ I)|exact (SPInv_PC _ _ I)|constructor].
  Qed.
  Lemma sstep_HSI : forall inst ovf tol p h o p' h', sids_ok inst -> fine_items (si_items inst) -> HSI inst p h ->
    match o with SPlace o _ => schecked p o | _ => True end -> sstep ovf tol (p, h) o = Ok (p', h') -> HSI inst p' h' /\ sop_ok p o.
  Proof.
    intros inst ovf tol p h o p' h' Ids Fi I C H. pose proof (HSI_SPInv _ _ _ I) as Pi. pose proof I as [Mi Bi Ly So].
    assert (V : sop_ok p o).
    { destruct o; try exact Logic.I. destruct C as (it & q & irr & _ & Ni & Tl & Ps & Tn). rewrite (sm_inst _ _ _ Mi) in Ni.
      cbn [sop_ok]. unfold place_ok. rewrite (sm_inst _ _ _ Mi).
      destruct (packed_cons M _ Fi (sp_layout p) it irr q (po_item o) (po_dt o) (sm_layout _ _ _ Mi) (q_fine M _ _ Pi) (q_packed _ _ _ Pi) Ni Tl Ps Tn) as (Nin & _).
      split; [exact (good_wf _ (shape_good M _ Fi _ _ _ (po_dt o) Ni))|exact Nin]. }
    split; [|exact V].
    pose proof (sstep_SMI BSok (sym_R M) inst ovf tol p h o p' h' Ids Mi V H) as Mi'. pose proof (sstep_inv inst ovf tol p h o p' h' Ids Bi H) as Bi'.
    assert (Mod : forall r ptr p1, modify_strip p r ptr = Ok p1 -> PC (si_items inst) (fun b => exists r c ptr, bin_from_strip r c ptr = Ok b) (content (sp_layout p1))).
    { intros r ptr p1 E. apply SPInv_PC. apply (modify_SPInv M BSok _ _ _ _ _ Ids Fi Pi E). }
    destruct o as [o ptr|li k b|r ptr|w ptr|w ptr|w ptr|ptr| |k|]; cbn [sstep] in H.
    - apply rbind_ok in H as ([r p1] & E & H). injection H as <- <-. split; auto. apply SPInv_PC. eapply (splace_SPInv M BSok); eassumption.
    - apply rbind_ok in H as ([r p1] & E & H). injection H as <- <-. split; auto. unfold sp_remove in E. apply rbind_ok in E as (u & _ & E).
      apply rbind_ok in E as ([pi l] & Er & E). apply rbind_ok in E as (m & Em & E). injection E as <- <-. cbn [sp_layout].
      eapply remove_PC; [exact (sm_layout _ _ _ Mi)|exact Er|exact Ly].
    - apply rbind_ok in H as (p1 & E & H). injection H as <- <-. split; auto. eapply Mod; exact E.
    - apply rbind_ok in H as (p1 & E & H). injection H as <- <-. split; auto. eapply Mod; exact E.
    - apply rbind_ok in H as (p1 & E & H). injection H as <- <-. split; auto. eapply Mod; exact E.
    - apply rbind_ok in H as (p1 & E & H). injection H as <- <-. split; auto. unfold modify_strip_centered in E.
      destruct (match occupied_range (sp_layout p) with Some r => r | None => (f0, f0) end) as [x y]. eapply Mod; exact E.
    - apply rbind_ok in H as (p1 & E & H). injection H as <- <-. split; auto. unfold fit_strip in E.
      apply rbind_ok in E as (p2 & E & E'). apply rbind_ok in E' as (u & _ & E'). injection E' as <-. unfold modify_strip_centered in E.
      destruct (match occupied_range (sp_layout p) with Some r => r | None => (f0, f0) end) as [x y]. eapply Mod; exact E.
    - apply rbind_ok in H as ([s p1] & E & H). injection H as <- <-. split; auto; apply sp_create_spec in E as (sn & l & Es & _ & Esol & ->);
        apply snapshot_content in Es as (C1 & C2 & _).
      + cbn [sp_layout]. rewrite C1. exact Ly.
      + apply Forall_app. split; [exact So|]. constructor; [|constructor]. rewrite Esol. cbn [so_layouts]. constructor; [|constructor]. rewrite C2. exact Ly.
    - apply rbind_ok in H as (s & Es & H). apply expect_ok, nth_error_In in Es. apply rbind_ok in H as (p1 & E & H). injection H as <- <-. split; auto.
      destruct (sp_restore_content _ _ _ _ _ _ Bi Es E) as (sn & m & El & Ec & _). rewrite Ec. rewrite Forall_forall in So. specialize (So s Es). rewrite El in So. inversion So; assumption.
    - apply rbind_ok in H as (p1 & E & H). injection H as <- <-. split; auto. unfold sp_flush in E. apply rbind_ok in E as (l & El & E). injection E as <-.
      cbn [sp_layout]. apply flush_content in El. rewrite El. exact Ly.
  Qed.
  Lemma srun_HSI : forall inst ovf tol ops p h p' h', sids_ok inst -> fine_items (si_items inst) -> HSI inst p h ->
    schecked_run ovf tol (p, h) ops -> rfold (sstep ovf tol) ops (p, h) = Ok (p', h') -> HSI inst p' h' /\ sops_ok ovf tol (p, h) ops.
  Proof.
    intros inst ovf tol. induction ops as [|o ops IH]; intros p h p' h' Ids Fi I C H; cbn [rfold] in H.
    - injection H as <- <-. split; [exact I|exact Logic.I].
    - apply rbind_ok in H as ([p1 h1] & E & H). cbn [schecked_run fst] in C. destruct C as (C1 & C2). rewrite E in C2.
      destruct (sstep_HSI _ _ _ _ _ _ _ _ Ids Fi I C1 E) as (I1 & V). destruct (IH _ _ _ _ Ids Fi I1 C2 H) as (I2 & V2).
      split; [exact I2|]. cbn [sops_ok fst]. split; [exact V|]. rewrite E. exact V2.
  Qed.
  Lemma strip_plain : forall r c ptr (b : bin), bin_from_strip r c ptr = Ok b -> plain_strip b.
  Proof.
    intros r c ptr b H. pose proof (strip_fine M _ _ _ _ H) as Bf. pose proof (strip_poly M _ _ _ _ H) as (Ep & Es). unfold bin_fine in Bf. rewrite Es in Bf.
    inversion Bf as [|? ? Go _]; subst. cbn in Go. split; [exact Go|]. split; [exact Es|]. exists r. exact Ep.
  Qed.
  Lemma strip_history : forall items hgt inst ovf tol w c ptr ops p0 p h, spinst_new items hgt = Ok inst -> fine_items items ->
    sp_new inst w c ptr = Ok p0 -> schecked_run ovf tol (p0, []) ops -> rfold (sstep ovf tol) ops (p0, []) = Ok (p, h) ->
    si_items inst = items /\ HSI inst p h /\ sops_ok ovf tol (p0, []) ops.
  Proof.
    intros items hgt inst ovf tol w c ptr ops p0 p h Hn Fi E0 C H. pose proof (sinst_ids _ _ _ Hn) as Ids.
    assert (Ei : si_items inst = items) by (unfold spinst_new in Hn; repeat (apply rbind_ok in Hn as (? & _ & Hn)); injection Hn as <-; reflexivity).
    split; [exact Ei|]. rewrite <- Ei in Fi. eapply srun_HSI; [exact Ids|exact Fi|eapply sp_new_HSI; exact E0|exact C|exact H].
  Qed.
  Theorem sp_history_packs : forall items hgt inst ovf tol w c ptr ops p0 p h, spinst_new items hgt = Ok inst -> fine_items items ->
    sp_new inst w c ptr = Ok p0 -> schecked_run ovf tol (p0, []) ops -> rfold (sstep ovf tol) ops (p0, []) = Ok (p, h) ->
    plain_strip (ly_bin (sp_layout p)) /\ packed items (ly_bin (sp_layout p)) (placed (sp_layout p)) /\
    Forall (fun s => exists sn, so_layouts s = [sn] /\ plain_strip (ls_bin sn) /\ packed items (ls_bin sn) (snap_placed sn)) h.
  Proof.
    intros items hgt inst ovf tol w c ptr ops p0 p h Hn Fi E0 C H. destruct (strip_history _ _ _ _ _ _ _ _ _ _ _ _ Hn Fi E0 C H) as (Ei & [_ Sv (A & _ & B) So] & _).
    rewrite Ei in *. destruct A as (r & c0 & ptr0 & A). split; [eapply strip_plain; exact A|]. split; [exact B|].
    rewrite Forall_forall in *. intros s Hs. pose proof (s_sols _ _ _ Sv) as K. rewrite Forall_forall in K. destruct (K s Hs) as (sn & K1). pose proof (ss_one _ _ _ K1) as El.
    specialize (So s Hs). rewrite El in So. inversion So as [|? ? ((r1 & c1 & ptr1 & X) & _ & Y) _]; subst. exists sn. split; [exact El|]. split; [eapply strip_plain; exact X|exact Y].
  Qed.
  Theorem sp_checked_valid : forall items hgt inst ovf tol w c ptr ops p0 p h, spinst_new items hgt = Ok inst -> fine_items items ->
    sp_new inst w c ptr = Ok p0 -> schecked_run ovf tol (p0, []) ops -> rfold (sstep ovf tol) ops (p0, []) = Ok (p, h) -> sops_ok ovf tol (p0, []) ops.
  Proof. intros items hgt inst ovf tol w c ptr ops p0 p h Hn Fi E0 C H. apply (strip_history _ _ _ _ _ _ _ _ _ _ _ _ Hn Fi E0 C H). Qed.
  Theorem sp_engine_decides : forall items hgt inst ovf tol w c ptr ops p0 p h i it q d irr, spinst_new items hgt = Ok inst -> fine_items items ->
    sp_new inst w c ptr = Ok p0 -> schecked_run ovf tol (p0, []) ops -> rfold (sstep ovf tol) ops (p0, []) = Ok (p, h) ->
    nth_error items i = Some (it, q) -> tolerated (sp_layout p) it irr -> turned_ok it d ->
    let a := ask (ly_cde (sp_layout p)) (AskPoly (tr_poly (compose d) (it_shape it)) irr) in
    (a = Ok TFalse <-> packed items (ly_bin (sp_layout p)) ((i, d) :: placed (sp_layout p))) /\
    (a = Ok TTrue <-> ~ packed items (ly_bin (sp_layout p)) ((i, d) :: placed (sp_layout p))).
  Proof.
    intros items hgt inst ovf tol w c ptr ops p0 p h i it q d irr Hn Fi E0 C H Hi Tl Tn a. destruct (strip_history _ _ _ _ _ _ _ _ _ _ _ _ Hn Fi E0 C H) as (Ei & I & _).
    pose proof (sm_layout _ _ _ (hs_mi _ _ _ I)) as Ll. destruct (hs_lay _ _ _ I) as (_ & Bf & Pl). rewrite Ei in *.
    pose proof (accepted_packs items (sp_layout p) it q irr i d Fi Ll Bf Pl Hi Tl Tn) as Q. unfold passes in Q. fold a in Q.
    split; [exact Q|]. rewrite <- Q. destruct (cat_good M items Fi _ _ _ Hi) as (_ & Gs).
    assert (E : a = Ok TFalse \/ a = Ok TTrue) by exact (answered items (sp_layout p) (tr_poly (compose d) (it_shape it)) irr Ll (good_tr_poly (compose d) _ (rigid_compose d) Gs)).
    destruct E as [E|E]; rewrite E; split; congruence.
  Qed.
End H.
