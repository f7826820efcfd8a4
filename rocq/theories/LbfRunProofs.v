(** Whole runs of the reference optimizer on bin packing instances. *)
From Coq Require Import List Bool Arith ZArith Lia Permutation.
From Verif Require Import Base Num GeoModel HazardModel QTModel TransfModel HpgModel CdeModel CdeSpec
  PolyModel SlotMapModel LayoutModel ProblemModel ProblemSpec LbfModel BaseProofs HazVecProofs QTProofs CdeProofs CdeOpsProofs CdeHistProofs CdeThmProofs SlotMapProofs ProblemProofs
  ProblemOpsProofs ProblemThmProofs LayoutProofs MirrorProofs Instances RigidProofs XformProofs RegionProofs GeoPrimProofs GeoRectProofs QTGeoProofs CdeGeoProofs CdeGeoThmProofs LbfSpec LbfProofs.
From Coq Require Import Reals Lra.
From Verif Require Import GeoModel HazardModel QTModel TransfModel HpgModel CdeModel CdeSpec GeoSpec PlaceSpec ShapeSpec LbfModel LbfSpec.
Import ListNotations.
Local Open Scope R_scope.

Section L.
  Variable M : R.
  #[local] Instance NLR : Num R := RNumT Reqb M.
  #[local] Existing Instance RTrig.
  Context {ED : EqD (dtransf R)} {BS : BSearch}.
  Hypothesis BSok : bsearch_ok BS.
  Local Notation dtransf := (dtransf R).
  Local Notation layout := (layout R dtransf).
  Local Notation popt := (popt dtransf).
  Local Notation bp := (bp R dtransf).
  Local Notation fact := (fact R dtransf).

  (** *** one layout *)
  Section Layout.
  Variable items : list (item R * nat).
  Hypothesis Gi : fine_items items.
  Local Notation cat := (item_shape items).
  Lemma cat_good : forall i it q, nth_error items i = Some (it, q) -> cat i = it_shape it /\ good_shape (it_shape it).
  Proof.
    intros i it q H. split; [eapply item_shape_of; exact H|]. unfold fine_items in Gi. rewrite Forall_forall in Gi.
    apply nth_error_In in H. apply (Gi _ H).
  Qed.
  Definition known (l : layout) : Prop := forall x, In x (placed l) -> exists it q, nth_error items (fst x) = Some (it, q).
  Definition l_facts (l : layout) : list fact :=
    map fact_of (bin_statics (ly_bin l)) ++ map (fun x => (PlacedItem (fst x) (snd x), shape_at cat (fst x) (snd x), true)) (placed l).
  Lemma l_facts_eq : forall l, LI cat l -> l_facts l = map fact_of (bin_statics (ly_bin l)) ++ map pfact (sm_values (ly_items l)).
  Proof.
    intros l (_ & (_ & S2 & _) & _). unfold l_facts. f_equal. unfold placed. rewrite map_map. apply map_ext_in. intros p Hp.
    rewrite Forall_forall in S2. destruct (S2 p Hp) as (E & _). unfold pfact, fact_of. cbn. rewrite E. reflexivity.
  Qed.
  Lemma shape_good : forall i it q d, nth_error items i = Some (it, q) -> good_shape (shape_at (N := NLR) cat i d).
  Proof.
    intros i it q d H. destruct (cat_good _ _ _ H) as (E & G). unfold shape_at. rewrite E.
    exact (good_tr_poly (compose d) (it_shape it) (rigid_compose d) G).
  Qed.
  Lemma exterior_static : forall (b : bin R dtransf) h, In h (bin_statics b) -> ent_position (h_ent h) = Exterior -> h = hazard_new BinExterior (bn_outer b).
  Proof.
    intros b h H E. unfold bin_statics, bin_hazards in H. destruct H as [<-|H]; [reflexivity|]. exfalso.
    apply in_app_or in H as [H|H].
    - apply (in_map (@h_ent R dtransf)) in H. rewrite arcs_ents in H. apply in_map_iff in H as (i & H & _). rewrite <- H in E. discriminate.
    - apply in_flat_map in H as (z & _ & H). apply (in_map (@h_ent R dtransf)) in H. rewrite arcs_ents in H. apply in_map_iff in H as (i & H & _). rewrite <- H in E. discriminate.
  Qed.
  Definition bin_fine (b : bin R dtransf) : Prop := Forall (fun h => good_shape (a_obj (h_shape h))) (bin_statics b).
  Lemma l_framed : forall l, bin_fine (ly_bin l) -> framed (bin_box (ly_bin l)) (l_facts l).
  Proof.
    intros l Gb. split.
    - assert (G : good_shape (a_obj (bn_outer (ly_bin l)))).
      { unfold bin_fine in Gb. rewrite Forall_forall in Gb. apply (Gb (hazard_new BinExterior (bn_outer (ly_bin l)))). left. reflexivity. }
      exact (inflate_proper _ (gs_proper _ G)).
    - intros f Hf E. unfold l_facts in Hf. apply in_app_or in Hf as [Hf|Hf].
      + apply in_map_iff in Hf as (h & <- & Hh). cbn in E. rewrite (exterior_static _ _ Hh E). reflexivity.
      + apply in_map_iff in Hf as (x & <- & _). discriminate.
  Qed.
  Lemma l_good : forall l, bin_fine (ly_bin l) -> known l -> good_facts (l_facts l).
  Proof.
    intros l Gb K f Hf. unfold l_facts in Hf. apply in_app_or in Hf as [Hf|Hf].
    - apply in_map_iff in Hf as (h & <- & Hh). unfold bin_fine in Gb. rewrite Forall_forall in Gb. apply (Gb h Hh).
    - apply in_map_iff in Hf as (x & <- & Hx). destruct (K x Hx) as (it & q & E). eapply shape_good. exact E.
  Qed.
  Lemma l_ask : forall l s irr, LI cat l -> good_poly s -> ask (ly_cde l) (AskPoly s irr) =
    Ok (answer (cfg_depth (bn_cfg (ly_bin l))) (bin_box (ly_bin l)) (l_facts l) (AskPoly s irr)).
  Proof.
    intros l s irr L W. rewrite (l_facts_eq l L). destruct L as (G & Fi & Rl).
    rewrite (ask_answer _ _ _ (AskPoly s irr) (rl_inv _ _ _ _ _ _ _ Rl) W). f_equal. apply answer_perm.
    - pose proof (inv_nodup_all _ _ _ (rl_inv _ _ _ _ _ _ _ Rl)) as X. unfold registered. rewrite map_map. exact X.
    - exact (related_registered _ _ _ _ _ _ _ Rl).
  Qed.
  Lemma passes_feasible : forall l it irr t, LI cat l -> bin_fine (ly_bin l) -> known l -> good_shape (it_shape it) -> rigid t ->
    passes l it irr t -> feasible (tr_poly t (it_shape it)) irr (l_facts l).
  Proof.
    intros l it irr t L Gb K Gs Rt H. pose proof (good_tr_poly t _ Rt Gs) as Gt. unfold passes in H.
    assert (A : ask (ly_cde l) (AskPoly (tr_poly t (it_shape it)) irr) =
      Ok (answer (cfg_depth (bn_cfg (ly_bin l))) (bin_box (ly_bin l)) (l_facts l) (AskPoly (tr_poly t (it_shape it)) irr)))
      by (apply (l_ask l _ irr L); exact (good_wf _ Gt)).
    rewrite A in H. cbn [answer] in H. injection H as H. apply yn_false in H.
    pose proof (l_framed l Gb) as Fr.
    refine (opoly_false (cfg_depth (bn_cfg (ly_bin l))) (bin_box (ly_bin l)) (l_facts l) Fr _ (tr_poly (N := RNum) t (it_shape it)) Gt _ irr (l_good l Gb K) H).
    - intros f Hf. apply good_sound, (l_good l Gb K), Hf.
    - pose proof (relation_to_ok (bin_box (ly_bin l)) (p_bbox (tr_poly (N := RNum) t (it_shape it))) (proper_nonempty _ (proj1 Fr)) (proper_nonempty _ (gs_proper _ Gt))) as RR.
      unfold opoly in H. 
      match type of H with context [relation_to ?a ?b] => change (relation_to a b) with (relation_to (N := RNum) (bin_box (ly_bin l)) (p_bbox (tr_poly (N := RNum) t (it_shape it)))) in H end.
      destruct (relation_to _ _) in RR, H; try discriminate. exact RR.
  Qed.

  Lemma region_vertex : forall s : poly R, good_shape s -> exists p, region (p_pts s) p.
  Proof. intros s G. exists (ccen (p_poi s)). right. apply (gs_poi _ G). Qed.
  Lemma covers_at : forall i it q d p, nth_error items i = Some (it, q) ->
    covers items (i, d) p <-> region (p_pts (tr_poly (compose d) (it_shape it))) p.
  Proof.
    intros i it q d p H. unfold covers. cbn [fst snd]. split.
    - intros (it' & q' & E & Rg). rewrite H in E. injection E as <- <-. exact Rg.
    - intros Rg. exists it, q. split; [exact H|exact Rg].
  Qed.
  (** what acceptance means for the items placed and the bin *)
  Lemma passes_apart : forall l it irr q i d, LI cat l -> bin_fine (ly_bin l) -> known l -> nth_error items i = Some (it, q) ->
    tolerated l it irr -> passes l it irr (compose d) ->
    (forall y p, In y (placed l) -> covers items (i, d) p -> covers items y p -> False) /\
    (forall h p, In h (bin_statics (ly_bin l)) -> ~ tolerates (it_quality it) (h_ent h) -> covers items (i, d) p -> ~ blocked (fact_of h) p).
  Proof.
    intros l it irr q i d L Gb K Hi Tl Ps. destruct (cat_good _ _ _ Hi) as (Ec & Gs).
    pose proof (passes_feasible l it irr (compose d) L Gb K Gs (rigid_compose d) Ps) as Fe. split.
    - intros y p Hy Cp Cy. apply (covers_at i it q d p Hi) in Cp.
      destruct (K y Hy) as (ity & qy & Ey). destruct y as [j e]. cbn [fst] in Ey. apply (covers_at j ity qy e p Ey) in Cy.
      refine (Fe (PlacedItem j e, shape_at (N := NLR) cat j e, true) _ eq_refl _ p Cp _).
      + unfold l_facts. apply in_or_app. right. apply in_map_iff. exists (j, e). auto.
      + cbn. intros X. apply Tl in X as (_ & k & z & X & _). discriminate.
      + unfold blocked. cbn. destruct (cat_good _ _ _ Ey) as (Ey' & _). rewrite Ey'. exact Cy.
    - intros h p Hh Nt Cp. apply (covers_at i it q d p Hi) in Cp.
      refine (Fe (fact_of h) _ _ _ p Cp).
      + unfold l_facts. apply in_or_app. left. apply in_map. exact Hh.
      + clear -Hh. unfold bin_statics, bin_hazards in Hh. destruct Hh as [<-|Hh]; [reflexivity|]. apply in_app_or in Hh as [Hh|Hh].
        * apply in_map_iff in Hh as (x & <- & _). reflexivity.
        * apply in_flat_map in Hh as (z & _ & Hh). apply in_map_iff in Hh as (x & <- & _). reflexivity.
      + intros X. apply Tl in X as (_ & X). exact (Nt X).
  Qed.
  Lemma packed_known : forall l, packed items (ly_bin l) (placed l) -> known l.
  Proof. intros l (_ & _ & _ & K) x Hx. destruct (K x Hx) as (it & q & a & E & _). eauto. Qed.
  Lemma packed_perm : forall b pl pl', Permutation pl pl' -> packed items b pl -> packed items b pl'.
  Proof.
    intros b pl pl' P (A & B & C & E). pose proof (Permutation_sym P) as P'. split; [eapply Permutation_NoDup; eassumption|]. split; [|split].
    - intros x y p Hx Hy. apply B; eapply Permutation_in; eassumption.
    - intros x it q h p Hx. apply C. eapply Permutation_in; eassumption.
    - intros x Hx. apply E. eapply Permutation_in; eassumption.
  Qed.
  Lemma packed_cons : forall l it irr q i d, LI cat l -> bin_fine (ly_bin l) -> packed items (ly_bin l) (placed l) -> nth_error items i = Some (it, q) ->
    tolerated l it irr -> passes l it irr (compose d) -> (exists a, allowed (it_rot it) a /\ turns a (compose d)) ->
    ~ In (i, d) (placed l) /\ packed items (ly_bin l) ((i, d) :: placed l).
  Proof.
    intros l it irr q i d L Gb Pk Hi Tl Ps (a & Al & Tn). destruct (passes_apart l it irr q i d L Gb (packed_known l Pk) Hi Tl Ps) as (A1 & A2).
    assert (Ni : ~ In (i, d) (placed l)).
    { intros X. destruct (cat_good _ _ _ Hi) as (Ec & Gs). destruct (region_vertex _ (good_tr_poly (compose d) _ (rigid_compose d) Gs)) as (p & Rp).
      assert (C : covers items (i, d) p) by (apply (covers_at i it q d p Hi); exact Rp). exact (A1 _ p X C C). }
    split; [exact Ni|]. destruct Pk as (B1 & B2 & B3 & B4). split; [constructor; assumption|]. split; [|split].
    - intros x y p [<-|Hx] [<-|Hy] Cx Cy; [reflexivity|exfalso; exact (A1 y p Hy Cx Cy)|exfalso; exact (A1 x p Hx Cy Cx)|exact (B2 x y p Hx Hy Cx Cy)].
    - intros x it' q' h p [<-|Hx] Ei Hh Nt Cx; [|eapply B3; eassumption]. cbn [fst] in Ei. rewrite Hi in Ei. injection Ei as <- <-. exact (A2 h p Hh Nt Cx).
    - intros x [<-|Hx]; [exists it, q, a; auto|exact (B4 x Hx)].
  Qed.
  Lemma packed_nil : forall b, packed items b [].
  Proof. intros b. split; [constructor|]. split; [|split]; intros x; intros; contradiction. Qed.
  End Layout.

  (** *** histories of a bin packing problem *)
  Record PInv (inst : bpinst R dtransf) (p : bp) : Prop := {
    pi_mi : MI inst p [];
    pi_bins : Forall (fun l => bin_fine (ly_bin l) /\ In (ly_bin l) (map fst (bi_bins inst))) (bp_layouts p ++ bp_templates p);
    pi_packed : Forall (fun l => packed (bi_items inst) (ly_bin l) (placed l)) (bp_layouts p);
    pi_empty : Forall (fun l => placed l = []) (bp_templates p)
  }.
  Lemma new_PI : forall inst, good_inst inst -> fine_bins (bi_bins inst) -> PInv inst (bp_new inst).
  Proof.
    intros inst (_ & G) Fb. split.
    - apply (new_MI BSok). exact G.
    - cbn [bp_new bp_layouts bp_templates app]. rewrite Forall_map, Forall_forall. intros [i [b q]] H. apply in_combine_r in H. cbn.
      unfold fine_bins in Fb. rewrite Forall_forall in Fb. split; [exact (Fb _ H)|]. apply in_map_iff. exists (b, q). auto.
    - constructor.
    - cbn [bp_new bp_templates]. rewrite Forall_map, Forall_forall. intros [i [b q]] H. reflexivity.
  Qed.
  Lemma vset_forall : forall {A} (P : A -> Prop) i x l, P x -> Forall P l -> Forall P (vset i x l).
  Proof. intros A P i x l Px H. revert i. induction H as [|y l Hy H IH]; intros [|i]; cbn; auto. Qed.
  Lemma place_PI : forall inst p o ptr r p', ids_ok inst -> fine_items (bi_items inst) -> PInv inst p -> checked p o ->
    bp_place p o ptr = Ok (r, p') -> PInv inst p' /\ bop_ok p (BPlace o ptr).
  Proof.
    intros inst p o ptr r p' Ids Gi [Mi Bi Pk Em] (l & it & q & irr & Tg & Ni & Tl & Ps & Tn) H.
    pose proof (m_inst _ _ _ Mi) as Ei. rewrite Ei in Ni.
    assert (Ll : LI (item_shape (bi_items inst)) l /\ (bin_fine (ly_bin l) /\ In (ly_bin l) (map fst (bi_bins inst))) /\ packed (bi_items inst) (ly_bin l) (placed l)).
    { apply Forall_app in Bi as (Bl & Bt). destruct (po_layout o) as [j|t]; cbn [target] in Tg; apply nth_error_In in Tg.
      - split; [|split]; [pose proof (m_layouts _ _ _ Mi) as X|pose proof Bl as X|pose proof Pk as X]; rewrite Forall_forall in X; exact (X l Tg).
      - split; [|split]; [pose proof (m_templates _ _ _ Mi) as X|pose proof Bt as X|]; [rewrite Forall_forall in X; exact (X l Tg)..|].
        rewrite Forall_forall in Em. rewrite (Em l Tg). apply packed_nil. }
    destruct Ll as (Ll & Bl & Pl). destruct (packed_cons _ Gi l it irr q (po_item o) (po_dt o) Ll (proj1 Bl) Pl Ni Tl Ps Tn) as (Nin & Pc).
    assert (V : bop_ok p (BPlace o ptr)).
    { cbn [bop_ok]. unfold place_ok. rewrite Ei. split.
      - exact (good_wf _ (shape_good _ Gi _ _ _ (po_dt o) Ni)).
      - rewrite Tg. exact Nin. }
    split; [|exact V]. pose proof (place_MI BSok inst p [] o ptr r p' Ids Mi V H) as Mi'.
    unfold bp_place in H. apply rbind_ok in H as ([j p1] & E1 & H). apply rbind_ok in H as (l1 & El & H). apply expect_ok in El.
    apply rbind_ok in H as (it1 & Eit & H). apply rbind_ok in H as ([k l'] & Epl & H). apply rbind_ok in H as (m & _ & H). injection H as <- <-.
    assert (K : bp_inst p1 = inst /\ content l1 = (ly_id l1, ly_bin l, ly_items l) /\ bp_templates p1 = bp_templates p /\
      Forall (fun l => bin_fine (ly_bin l) /\ In (ly_bin l) (map fst (bi_bins inst))) (bp_layouts p1 ++ bp_templates p) /\
      Forall (fun l => packed (bi_items inst) (ly_bin l) (placed l)) (bp_layouts p1)).
    { destruct (po_layout o) as [j0|t]; cbn [target] in Tg.
      - injection E1 as <- <-. rewrite Tg in El. injection El as <-. repeat (split; [auto; reflexivity|]). exact Pk.
      - apply rbind_ok in E1 as (tl & Et & E1). apply expect_ok in Et. rewrite Tg in Et. injection Et as <-.
        unfold bp_register_layout in E1. apply rbind_ok in E1 as (bins & _ & E1). apply rbind_ok in E1 as (mm & _ & E1).
        injection E1 as <- <-. cbn [bp_inst bp_layouts bp_templates] in *. rewrite nth_error_app2, Nat.sub_diag in El by lia. cbn in El. injection El as <-.
        split; [exact Ei|]. split; [reflexivity|]. split; [reflexivity|]. apply Forall_app in Bi as (Bl1 & Bt1). split.
        + apply Forall_app. split; [|exact Bt1]. apply Forall_app. split; [exact Bl1|]. constructor; [exact Bl|constructor].
        + apply Forall_app. split; [exact Pk|]. constructor; [exact Pl|constructor]. }
    destruct K as (K1 & K2 & K3 & K4 & K5). rewrite K1 in Eit. apply item_of_inv in Eit as (q1 & Eit). rewrite Ni in Eit. injection Eit as <- <-.
    apply place_content in Epl as (_ & Eb & Ins). unfold content in K2. injection K2 as Kb Kit. rewrite Kb in Eb. rewrite Kit in Ins.
    assert (Pm : Permutation (placed l') ((po_item o, po_dt o) :: placed l)).
    { pose proof (insert_perm (ly_items l) (pi_new it (po_dt o) ptr) (proj1 (proj1 (proj2 Ll)))) as P. rewrite Ins in P. cbn [snd] in P.
      unfold placed. apply (Permutation_map (fun p : pitem R dtransf => (pi_item p, pi_dt p))) in P. cbn [map pi_new pi_item pi_dt] in P.
      rewrite (proj1 Ids _ _ _ Ni) in P. exact P. }
    split; [exact Mi'|..]; cbn [bp_layouts bp_templates].
    - rewrite K3. apply Forall_app in K4 as (Ka & Kc). apply Forall_app. split; [|exact Kc]. apply vset_forall; [rewrite Eb; exact Bl|exact Ka].
    - apply vset_forall; [|exact K5]. rewrite Eb. eapply packed_perm; [symmetry; exact Pm|exact Pc].
    - rewrite K3. exact Em.
  Qed.
  Lemma run_PI : forall inst ovf ops p p' h, ids_ok inst -> fine_items (bi_items inst) -> PInv inst p -> all_checked p ops ->
    rfold (bstep ovf) (place_ops ops) (p, []) = Ok (p', h) -> PInv inst p' /\ h = [] /\ bops_ok ovf (p, []) (place_ops ops).
  Proof.
    intros inst ovf. induction ops as [|[o ptr] ops IH]; intros p p' h Ids Gi I C H.
    - cbn in H. injection H as <- <-. split; [exact I|]. split; [reflexivity|exact Logic.I].
    - cbn [place_ops map rfold fst snd] in H. apply rbind_ok in H as ([p1 h1] & E & H). pose proof E as Est. cbn [bstep] in E.
      apply rbind_ok in E as ([r p2] & E & X). injection X as <- <-. destruct C as (C1 & C2).
      destruct (place_PI _ _ _ _ _ _ Ids Gi I C1 E) as (I1 & V). destruct (IH _ _ _ Ids Gi I1 (C2 _ _ E) H) as (I2 & Eh & V2).
      split; [exact I2|]. split; [exact Eh|]. cbn [place_ops map bops_ok fst snd]. split; [exact V|]. rewrite Est. exact V2.
  Qed.
End L.
